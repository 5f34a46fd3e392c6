#!/usr/bin/env python3
"""Transcribes /repo/tests/folding.rs into theories/RepoTestsFolding.v."""
import re
src = open('/repo/tests/folding.rs').read()
src = src[src.index('#[test]'):]
def lines(block):
    out = []
    for m in re.finditer(r'r#"(.*?)"#,|"((?:[^"\\]|\\.)*)",\s*//', block):
        out.append(m[1] if m[1] is not None else m[2])
    return out
inputs = lines(re.search(r'let input = \[(.*?)\];', src, re.S)[1])
tests = []
for m in re.finditer(r'assert_ranges\((.*?)\);\s', src, re.S):
    b = m[1]
    if '&input' in b:
        ls, rest = inputs, b[b.index('&input') + 6:]
    else:
        k = re.match(r'\s*&\[(.*?)\n\s*\],', b, re.S)
        ls, rest = lines(k[1]), b[k.end():]
    rs = [(x[1], int(x[2]), int(x[3])) for x in re.finditer(r'\b(r|rc|rr)\((\d+), (\d+)\)', rest)]
    lim = re.search(r'Some\((\d+)\)', rest)
    tests.append((ls, rs, 'Some %s' % lim[1] if lim else 'None'))
kind = {'r': 'None', 'rc': '(Some KComment)', 'rr': '(Some KRegion)'}
print(len(tests))
o = ['''(** Tests of /repo/tests/folding.rs transcribed (generated by tools/gen_folding_tests.py).
    They validate the model's fidelity; they are tests, not proofs. As there, the
    result is sorted by start line. *)
From Verif Require Import Base Stream Scanner Tree Parser TextDoc Folding.

Definition NL : str := [10%N].
Fixpoint lines (l : list str) : str :=
  match l with [] => [] | [x] => x | x :: r => x ++ NL ++ lines r end.
Fixpoint by_start_insert (x : frange) (l : list frange) :=
  match l with [] => [x] | y :: r => if f_start x <=? f_start y then x :: l else y :: by_start_insert x r end.
Definition folding (l : list str) (limit : option nat) : res (list frange) :=
  do r <- get_folding_ranges demo_unicode (utf16_doc (lines l)) limit html5_void false;
  Ok (fold_right by_start_insert [] r).
''']
for i, (ls, rs, lim) in enumerate(tests):
    o.append('Example folding_%d : folding [%s] (%s) =\n  Ok [%s].\nProof. vm_compute. reflexivity. Qed.\n' % (
        i, '; '.join('bs "%s"' % x.replace('"', '""') for x in ls), lim,
        '; '.join('mkF %d %d %s' % (a, b, kind[k]) for k, a, b in rs)))
open('/verif/rocq/theories/RepoTestsFolding.v', 'w').write('\n'.join(o))
