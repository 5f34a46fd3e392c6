#!/usr/bin/env python3
"""Generates rocq/theories/BuiltinText.v from /repo/src/language_facts/web_custom_data.rs."""
import os
ROOT = os.path.dirname(os.path.dirname(os.path.abspath(__file__)))
s = open('/repo/src/language_facts/web_custom_data.rs').read()
t = s[s.index('r##"') + 4:s.index('"##')]
first = s[:s.index('r##"')].count('\n') + 1
ls = t.split('\n')
q = lambda x: '"%s"' % x.replace('"', '""')
rows = []
for l in ls:
    k = len(l) - len(l.lstrip(' '))
    rows.append('(%d, %s)' % (k, q(l[k:])))
# in blocks, so that no list is very long
B = 200
blocks = [rows[i:i + B] for i in range(0, len(rows), B)]
out = '''(** * BuiltinText: /repo/src/language_facts/web_custom_data.rs:%d-%d
    Generated by tools/gen_builtin_text.py. The text HTML_DATA, line by line: the number of spaces a line starts with
    and the rest of it. *)
From Verif Require Import Base.

Definition text_row (l : nat * string) : str := repeat 32%%N (fst l) ++ bs (snd l).
Definition text_block (l : list (nat * string)) : str := flat_map (fun x => text_row x ++ [10%%N]) l.
''' % (first, first + len(ls) - 1)
for i, b in enumerate(blocks):
    out += 'Definition html_data_%d : list (nat * string) :=\n  [%s]%%string.\n' % (i, ';\n   '.join(b))
out += '''
(** HTML_DATA; there is no line feed behind its last line. *)
Definition html_data_text : str :=
  removelast (flat_map text_block [%s]).
''' % '; '.join('html_data_%d' % i for i in range(len(blocks)))
open(os.path.join(ROOT, 'rocq/theories/BuiltinText.v'), 'w').write(out)
