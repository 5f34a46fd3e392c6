#!/usr/bin/env python3
"""Transcribes /repo/tests/links.rs into theories/RepoTestsLinks.v."""
import re
src = open('/repo/tests/links.rs').read()
src = src[src.index('#[test]'):]
src = re.sub(r'//[^\n"]*\n', '\n', src)
STR = r'(?:r##"(.*?)"##|r#"(.*?)"#|"((?:[^"\\]|\\.)*)")'
def strs(s):
    out = []
    for m in re.finditer(STR, s, re.S):
        if m[1] is not None: out.append(m[1])
        elif m[2] is not None: out.append(m[2])
        else: out.append(re.sub(r'\\(.)', lambda k: {'t': '\t', 'n': '\n'}.get(k[1], k[1]), m[3]))
    return out
def coq(s):
    parts = re.split('([\t\n])', s)
    return '(' + ' ++ '.join('[%d%%N]' % ord(p) if p in '\t\n' and p else 'bs "%s"' % p.replace('"', '""')
                             for p in parts if p) + ')'
o = ['''(** Tests of /repo/tests/links.rs transcribed (generated by tools/gen_links_tests.py).
    They validate the model's fidelity; they are tests, not proofs. *)
From Verif Require Import Base Stream Scanner Tree TextDoc DataManager Uri Links.

Definition links (uri text : str) : res (list link) :=
  find_document_links demo_unicode rfc_uri (resolve_reference rfc_uri) uri (utf16_doc text) false.
Definition link_creation (uri token : str) : res (option str) :=
  do l <- links uri (bs "<a href=""" ++ token ++ bs """");
  Ok match l with k :: _ => lk_target k | [] => None end.
Definition link_detection : str -> res (list link) := links (bs "file:///test/data/abc/test.html").
Definition lk (a b : nat) (target : str) : link :=
  mkLink {| r_start := {| line := 0; character := a |}; r_end := {| line := 0; character := b |} |} (Some target).
''']
n = 0
for m in re.finditer(r'test_link_(creation|detection)\((.*?)\);\n', src, re.S):
    b = m[2]
    if m[1] == 'creation':
        ss = strs(b)
        exp = 'None' if len(ss) == 2 else '(Some %s)' % coq(ss[2])
        o.append('Example link_%d : link_creation %s %s = Ok %s.' % (n, coq(ss[0]), coq(ss[1]), exp))
    else:
        i = b.index('vec![')
        ss = strs(b[:i])
        if ss[0] == '{}{}': ss = [ss[1] + ss[2]]
        ls = []
        if 'DocumentLink' in b:
            ps = re.findall(r'Position::new\((\d+), (\d+)\)', b)
            tg = strs(b[i:])
            assert len(ps) == 2 and len(tg) == 1 and ps[0][0] == ps[1][0] == '0'
            ls = ['lk %s %s %s' % (ps[0][1], ps[1][1], coq(tg[0]))]
        o.append('Example link_%d : link_detection %s = Ok [%s].' % (n, coq(ss[0]), '; '.join(ls)))
    o.append('Proof. vm_compute. reflexivity. Qed.')
    n += 1
print(n)
open('/verif/rocq/theories/RepoTestsLinks.v', 'w').write('\n'.join(o) + '\n')
