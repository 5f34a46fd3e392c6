# Transcribes /repo/tests/{highlight,linked_editing,matching_tag_position,rename,symbols}.rs
# into rocq/theories/RepoTestsTags.v.
import re, os
T = "/repo/tests/"
def q(s): return '(bs "%s")' % s.replace('"', '""')
def unraw(s):
    m = re.fullmatch(r'r#"(.*)"#', s, re.S)
    return m.group(1) if m else re.fullmatch(r'"(.*)"', s, re.S).group(1)
STR = r'(r#".*?"#|"[^"]*")'
out = []
def ex(kind, i, lhs, rhs):
    out.append("Example %s_%d : %s = %s.\nProof. vm_compute. reflexivity. Qed.\n" % (kind, i, lhs, rhs))
def cut(v):
    o = v.index("|"); return v[:o] + v[o+1:], o
body = open(T + "highlight.rs").read(); body = body[body.index("fn single"):]
for i, m in enumerate(re.finditer(r'assert_highlights\(\s*' + STR + r',\s*&\[([^\]]*)\],\s*(None|Some\("(\w+)"\))', body)):
    v, o = cut(unraw(m.group(1))); ms = [int(x) for x in m.group(2).split(",") if x.strip()]
    n = len(m.group(4) or "")
    ex("highlight", i, "highlights %s %d" % (q(v), o), "Ok [%s]" % "; ".join("(%d, %d)" % (x, x + n) for x in ms))
body = open(T + "linked_editing.rs").read(); body = body[body.index("fn linked_editing("):]
for i, m in enumerate(re.finditer(r'test_linked_editing\(' + STR + r', vec!\[(.*?)\]\)', body)):
    v, o = cut(unraw(m.group(1))); ms = re.findall(r'\((\d+), "(\w*)"\)', m.group(2))
    ex("linked", i, "linked %s %d" % (q(v), o), "Ok [%s]" % "; ".join("(%s, bs \"%s\")" % x for x in ms))
body = open(T + "matching_tag_position.rs").read(); body = body[body.index("fn matching_position"):]
for i, m in enumerate(re.finditer(r'test_matching_tag_position\(' + STR + r'\)', body)):
    v, o = cut(unraw(m.group(1))); k = v.index("$"); v = v[:k] + v[k+1:]
    if k < o: o -= 1
    ex("matching", i, "matching %s %d" % (q(v), o), "Ok (Some %d)" % k)
body = open(T + "rename.rs").read(); body = body[body.index("fn rename_tag"):]
for i, m in enumerate(re.finditer(r'test_rename\(' + STR + r', "(\w+)", ' + STR + r'\)|test_no_rename\(' + STR + r', "(\w+)"\)', body)):
    if m.group(1):
        v, o = cut(unraw(m.group(1)))
        ex("rename", i, "rename %s %s %d" % (q(v), q(m.group(2)), o), "Ok (Some %s)" % q(unraw(m.group(3))))
    else:
        v, o = cut(unraw(m.group(4)))
        ex("rename", i, "rename %s %s %d" % (q(v), q(m.group(5)), o), "Ok None")
body = open(T + "symbols.rs").read(); body = body[body.index("fn simple"):]
# every call: the content is the literal or the last `content`
i = 0; content = None
POS = r'Position::new\((\d+), (\d+)\)'
def tree(s):
    # parse the nested DocumentSymbol structure
    res = []; k = 0
    while True:
        k = s.find("DocumentSymbol {", k)
        if k < 0: return res
        d = 0; e = s.index("{", k)
        for e2 in range(e, len(s)):
            d += {"{": 1, "}": -1}.get(s[e2], 0)
            if d == 0: break
        b = s[e+1:e2]; k = e2
        name = re.search(r'name: "([^"]*)"', b).group(1)
        r = re.findall(POS, b)[:2]
        ch = b[b.index("children: Some(vec!["):]
        res.append("mkSym %s (%s) (%s) [%s]" % (q(name), ", ".join(r[0]), ", ".join(r[1]), "; ".join(tree(ch))))
calls = [(m.start(), m.group(0)) for m in re.finditer(r'let content =\s*' + STR + r'|test_(?:symbol_informations|document_symbols)_for\(\s*(?:' + STR + r'|&content)', body)]
for j, (p, g) in enumerate(calls):
    e = calls[j+1][0] if j + 1 < len(calls) else len(body)
    s = re.search(STR, g)
    if g.startswith("let"): content = unraw(s.group(1)); continue
    v = unraw(s.group(1)) if s else content
    b = body[p:e]
    if "informations" in g:
        items = re.findall(r'SymbolInformation \{\s*name: "([^"]*)".*?' + POS + r', ' + POS + r'.*?container_name: (None|Some\("([^"]*)"\.to_string\(\)\))', b, re.S)
        ex("infos", j, "infos %s" % q(v), "Ok [%s]" % "; ".join("(bs \"%s\", (%s, %s), (%s, %s), %s)" % (n, a, c, d, f, "None" if g2 == "None" else "Some (bs \"%s\")" % h) for n, a, c, d, f, g2, h in items))
    else:
        ex("symbols", j, "symbols %s" % q(v), "Ok [%s]" % "; ".join(tree(b)))
head = '''(** Tests of /repo/tests/highlight.rs, linked_editing.rs, matching_tag_position.rs, rename.rs and
    symbols.rs transcribed (generated by tools/gen_tag_tests.py). They validate the model's
    fidelity; they are tests, not proofs. *)
From Verif Require Import Base Stream Scanner Tree Parser TextDoc TagServices.

(** The cursor is at offset [o]; the answers as offsets. *)
Definition on_doc {A} (s : str) (f : textdoc -> list node -> res A) : res A :=
  do roots <- parse demo_unicode s false html5_void; f (utf16_doc s) roots.
Definition offsets (d : textdoc) (r : range) : nat * nat := (offset_at d (r_start r), offset_at d (r_end r)).
Definition highlights (s : str) (o : nat) : res (list (nat * nat)) :=
  on_doc s (fun d roots => do l <- find_document_highlights demo_unicode d (position_at d o) roots false; Ok (map (offsets d) l)).
Definition linked (s : str) (o : nat) : res (list (nat * str)) :=
  on_doc s (fun d roots => do l <- find_linked_editing_ranges d (position_at d o) roots;
    Ok (match l with
        | Some l => map (fun r => let (a, b) := offsets d r in (a, sub s a b)) l
        | None => []
        end)).
Definition matching (s : str) (o : nat) : res (option nat) :=
  on_doc s (fun d roots => do p <- find_matching_tag_position d (position_at d o) roots;
    Ok (match p with Some p => Some (offset_at d p) | None => None end)).
(** apply_edits of rename.rs *)
Fixpoint apply_edits (d : textdoc) (prev : nat) (l : list (range * str)) : str :=
  match l with
  | [] => skipn prev (d_text d)
  | (r, x) :: l => let (a, b) := offsets d r in sub (d_text d) prev a ++ x ++ apply_edits d b l
  end.
Definition rename (s new : str) (o : nat) : res (option str) :=
  on_doc s (fun d roots => do e <- do_rename d (position_at d o) new roots;
    Ok (match e with Some e => Some (apply_edits d 0 e) | None => None end)).
Definition place (p : position) : nat * nat := (line p, character p).
Inductive sym := mkSym (name : str) (a b : nat * nat) (children : list sym).
Fixpoint to_sym (s : symbol) : sym :=
  match s with mkSymbol n r _ ch => mkSym n (place (r_start r)) (place (r_end r)) (map to_sym ch) end.
Definition symbols (s : str) : res (list sym) := on_doc s (fun d roots => Ok (map to_sym (find_document_symbols2 d roots))).
Definition infos (s : str) : res (list (str * (nat * nat) * (nat * nat) * option str)) :=
  on_doc s (fun d roots => Ok (map (fun i => (i_name i, place (r_start (i_range i)), place (r_end (i_range i)), i_container i)) (find_document_symbols d roots))).

'''
dst = os.path.join(os.path.dirname(os.path.abspath(__file__)), "..", "rocq", "theories", "RepoTestsTags.v")
open(dst, "w").write(head + "\n".join(out))
print(len(out))
