"""Transcribe /repo/src/parser/html_entities.rs into rocq/theories/Entities.v."""
import os, re
ROOT = os.path.dirname(os.path.dirname(os.path.abspath(__file__)))
rows = []
for line in open('/repo/src/parser/html_entities.rs'):
    m = re.match(r'\("([^"]*)", "((?:\\u\{[0-9A-Fa-f]+\})+)"\),$', line.strip())
    if m:
        rows.append((m[1], [int(x, 16) for x in re.findall(r'\\u\{([0-9A-Fa-f]+)\}', m[2])]))
out = ['(** * Entities: the table of /repo/src/parser/html_entities.rs:8-2238.',
       '    Generated by tools/gen_entities.py; entries that are commented out there are left',
       '    out here. Keys with and without a semicolon; values are code points. *)',
       'From Verif Require Import Base.', '',
       'Definition entities : list (str * list N) := [']
for i, (k, v) in enumerate(rows):
    out.append('  (bs "%s", [%s])%s' % (k, '; '.join('%d%%N' % c for c in v), ';' if i + 1 < len(rows) else '].'))
open(os.path.join(ROOT, 'rocq/theories/Entities.v'), 'w').write('\n'.join(out) + '\n')
print(len(rows))
