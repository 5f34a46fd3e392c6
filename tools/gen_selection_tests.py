#!/usr/bin/env python3
"""Transcribes /repo/tests/selection_range.rs into theories/RepoTestsSelection.v."""
import re
src = open('/repo/tests/selection_range.rs').read()
src = src[src.index('fn basic'):]
L = r'(?:r#"(?P<%s>.*?)"#|"(?P<%s>(?:[^"\\]|\\.)*)")'
def lit(m, a, b):
    return m[a] if m[a] is not None else m[b].replace('\\n', '\n')
tests = []
for m in re.finditer(r'assert_ranges\(\s*' + L % ('a', 'b') + r',\s*vec!\[(?P<rest>.*?)\],?\s*\);', src, re.S):
    text = lit(m, 'a', 'b')
    exp = [(int(x['o']), lit(x, 'c', 'd')) for x in re.finditer(r'\((?P<o>\d+),\s*' + L % ('c', 'd') + r'\)', m['rest'])]
    tests.append((text, exp))
print(len(tests))
q = lambda s: 'bs "%s"' % s.replace('"', '""')
o = ['''(** Tests of /repo/tests/selection_range.rs transcribed (generated by
    tools/gen_selection_tests.py). They validate the model's fidelity; they are
    tests, not proofs. *)
From Verif Require Import Base Stream Scanner Tree Parser TextDoc SelectionRange.

(** The cursor is at offset [o]; the answer as (offset, text) pairs. *)
Definition selection (s : str) (o : nat) : res (list (nat * str)) :=
  let d := utf16_doc s in
  do roots <- parse demo_unicode s false html5_void;
  do l <- get_selection_ranges demo_unicode d [position_at d o] roots false;
  Ok (map (fun r => (offset_at d (r_start r), sub s (offset_at d (r_start r)) (offset_at d (r_end r)))) (concat l)).
''']
for i, (t, e) in enumerate(tests):
    k = t.index('|')
    o.append('Example selection_%d : selection (%s) %d =\n  Ok [%s].\nProof. vm_compute. reflexivity. Qed.\n' % (
        i, q(t[:k] + t[k+1:]), len(t[:k].encode()), '; '.join('(%d, %s)' % (a, q(b)) for a, b in e)))
open('/verif/rocq/theories/RepoTestsSelection.v', 'w').write('\n'.join(o))
