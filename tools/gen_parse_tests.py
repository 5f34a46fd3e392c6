#!/usr/bin/env python3
"""Transcribes /repo/tests/parse.rs into theories/RepoTestsParse.v."""
import re
src = open('/repo/tests/parse.rs').read()
def coqstr(b):
    return "[" + ";".join(str(x) for x in b) + "]%N"
def lit(s):
    s = s.strip()
    m = re.match(r'r#"(.*)"#$', s, re.S)
    if m: return m[1].encode()
    m = re.match(r'"(.*)"$', s, re.S)
    return m[1].replace('\\n', '\n').encode()
def show(b):
    if all(32 <= x < 127 for x in b):
        return 'bs "' + b.decode().replace('"', '""') + '"'
    return coqstr(b)
out = ['''(** Tests of /repo/tests/parse.rs transcribed (generated by tools/gen_parse_tests.py).
    They validate the model's fidelity; they are tests, not proofs. *)
From Verif Require Import Base Stream Scanner Tree Parser.

Inductive json := J (tag : str) (s e : nat) (ets : option nat) (closed : bool) (ch : list json).
Fixpoint to_json (n : node) : json :=
  match n with mkNode tag s e ch cl _ ets _ =>
    J (match tag with Some x => x | None => [] end) s e ets cl (map to_json ch) end.
Definition parse_html (t : str) := parse demo_unicode t false html5_void.
Definition doc (t : str) : res (list json) :=
  match parse_html t with Ok l => Ok (map to_json l) | Panic r => Panic r | OutOfFuel => OutOfFuel end.
Inductive jattr := JA (tag : str) (attrs : list (str * attribute)) (ch : list jattr).
Fixpoint to_jattr (n : node) : jattr :=
  match n with mkNode tag _ _ ch _ _ _ at_ =>
    JA (match tag with Some x => x | None => [] end) at_ (map to_jattr ch) end.
Definition docattr (t : str) : res (list jattr) :=
  match parse_html t with Ok l => Ok (map to_jattr l) | Panic r => Panic r | OutOfFuel => OutOfFuel end.
Definition tag_before (t : str) (o : nat) : res (option str) :=
  do l <- parse_html t; do r <- find_node_before l o;
  Ok (match r with Some (n, _) => n_tag n | None => None end).
Definition token_in (t : str) (o : nat) : res token_type :=
  do l <- parse_html t; do r <- find_node_at l o;
  match r with Some (n, _) => find_token_type_in_node n o | None => Ok Unknown end.
''']
def opt(s):
    return "None" if s.strip() == "None" else "(Some %s)" % re.search(r'\d+', s)[0]
def conv(body):
    # body: rust vec![NodeJSON {...}, ...]
    toks = re.findall(r'vec!\[|NodeJSON \{|\]|\}|tag: "[^"]*"|start: \d+|end: \d+|end_tag_start: [^,]+,|closed: \w+|children:', body)
    i = 0
    def vec():
        nonlocal i
        assert toks[i] == 'vec!['; i += 1
        r = []
        while toks[i] != ']':
            r.append(node())
        i += 1
        return "[" + "; ".join(r) + "]"
    def node():
        nonlocal i
        assert toks[i] == 'NodeJSON {'; i += 1
        f = {}
        while toks[i] != '}':
            t = toks[i]; i += 1
            if t == 'children:': f['ch'] = vec()
            else:
                k, v = t.rstrip(',').split(': ', 1); f[k] = v
        i += 1
        return 'J (bs %s) %s %s %s %s %s' % (f['tag'], f['start'], f['end'], opt(f['end_tag_start']), f['closed'], f['ch'])
    return vec()
k = 0
for m in re.finditer(r'assert_document\(\s*(r#".*?"#|"(?:[^"\\]|\\.)*"),\s*(vec!\[.*?)\s*\);', src, re.S):
    k += 1
    out.append('Example doc_%d : doc (%s) = Ok %s.\nProof. vm_compute. reflexivity. Qed.' % (k, show(lit(m[1])), conv(m[2])))
nd = k; k = 0
for f in re.finditer(r'fn find_node_before\w*\(\) \{(.*?)\n\}', src, re.S):
    inp = lit(re.search(r'let input = (.*?);\n', f[1])[1])
    for m in re.finditer(r'assert_node_before\(input, (\d+), (None|Some\("(\w+)"\))\)', f[1]):
        k += 1
        out.append('Example before_%d : tag_before (%s) %s = Ok %s.\nProof. vm_compute. reflexivity. Qed.' % (k, show(inp), m[1], 'None' if m[2] == 'None' else '(Some (bs "%s"))' % m[3]))
f = re.search(r'fn find_token_type_in_node\(\) \{(.*?)\n\}', src, re.S)
inp = lit(re.search(r'let input = (.*?);\n', f[1])[1])
for m in re.finditer(r'assert_find_token_type_in_node\(&input, (\d+), TokenType::(\w+)\)', f[1]):
    out.append('Example token_in_%s : token_in (%s) %s = Ok %s.\nProof. vm_compute. reflexivity. Qed.' % (m[1], show(inp), m[1], m[2]))
k2 = 0
for f in re.finditer(r'fn attributes\w*\(\) \{(.*?)\n\}', src, re.S):
    inp = lit(re.search(r'let input = (.*?);\n', f[1])[1])
    body = f[1]
    toks = re.findall(r'vec!\[|\]|NodeJSONWithAttributes \{|\}|tag: "[^"]*"|HashMap::from\(\[|children:|"[\w-]+"\.to_string\(\),|NodeAttribute::new\((?:None|Some\((?:r#".*?"#|"[^"]*")\.to_string\(\)\)), \d+\)', body[body.index('vec!['):])
    i = 0
    def vec():
        global i
        assert toks[i] == 'vec!['; i += 1
        r = []
        while toks[i] != ']': r.append(node())
        i += 1
        return "[" + "; ".join(r) + "]"
    def node():
        global i
        assert toks[i].startswith('NodeJSONW'), toks[i]; i += 1
        tag = toks[i][6:-1]; i += 1
        assert toks[i].startswith('HashMap'); i += 1
        at = []
        while toks[i] != ']':
            key = re.match(r'"([\w-]+)"', toks[i])[1]; i += 1
            mm = re.match(r'NodeAttribute::new\((None|Some\((.*)\.to_string\(\)\)), (\d+)\)', toks[i]); i += 1
            v = 'None' if mm[1] == 'None' else '(Some (%s))' % show(lit(mm[2]))
            at.append('(bs "%s", mkAttr %s %s)' % (key, v, mm[3]))
        i += 1
        assert toks[i] == 'children:'; i += 1
        ch = vec()
        assert toks[i] == '}'; i += 1
        return 'JA (bs "%s") [%s] %s' % (tag, "; ".join(at), ch)
    k2 += 1
    out.append('Example attrs_%d : docattr (%s) = Ok %s.\nProof. vm_compute. reflexivity. Qed.' % (k2, show(inp), vec()))
print(nd, k, k2)
open('/verif/rocq/theories/RepoTestsParse.v', 'w').write("\n".join(out) + "\n")
