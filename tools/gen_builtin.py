#!/usr/bin/env python3
"""Generates rocq/theories/BuiltinData.v from /repo/src/language_facts/web_custom_data.rs."""
import json, os
ROOT = os.path.dirname(os.path.dirname(os.path.abspath(__file__)))
s = open('/repo/src/language_facts/web_custom_data.rs').read()
d = json.loads(s[s.index('r##"') + 4:s.index('"##')])
assert all('attributes' in t for t in d['tags'])
q = lambda x: 'bs "%s"' % x.replace('"', '""')
def attr(a):
    assert 'values' not in a
    return 'A_ (%s) (%s)' % (q(a['name']), 'Some (%s)' % q(a['valueSet']) if 'valueSet' in a else 'None')
def lst(l, ind):
    return '[' + (';\n' + ' ' * ind).join(l) + ']'
def tag(t):
    v = {None: 'None', True: 'Some true', False: 'Some false'}[t.get('void')]
    return 'T_ (%s) (%s)\n    %s' % (q(t['name']), v, lst([attr(a) for a in t['attributes']], 5))
out = '''(** * BuiltinData: /repo/src/language_facts/web_custom_data.rs
    Generated by tools/gen_builtin.py. The built-in table HTML_DATA as serde_json reads it:
    tags with their attributes and void flags, global attributes and value sets, in order.
    Simplified: the descriptions and references of the entries are left out (None). *)
From Verif Require Import Base DataManager.

Definition V_ (x : str) : value_data := mkValue x None None.
Definition A_ (x : str) (vs : option str) : attr_data := mkAttr x None vs None None.
Definition T_ (x : str) (void : option bool) (l : list attr_data) : tag_data := mkTag x None l None void.

Definition builtin_tags : list tag_data := Eval vm_compute in
  %s.

Definition builtin_globals : list attr_data := Eval vm_compute in
  %s.

Definition builtin_sets : list (str * list value_data) := Eval vm_compute in
  %s.

(** HTML_DATA_INSTANCE, web_custom_data.rs:5-7 *)
Definition builtin_data : html_data := mkData (Some builtin_tags) (Some builtin_globals) (Some builtin_sets).
''' % (lst([tag(t) for t in d['tags']], 3), lst([attr(a) for a in d['globalAttributes']], 3),
       lst(['(%s, %s)' % (q(v['name']), lst(['V_ (%s)' % q(x['name']) for x in v['values']], 5)) for v in d['valueSets']], 3))
open(os.path.join(ROOT, 'rocq/theories/BuiltinData.v'), 'w').write(out)
