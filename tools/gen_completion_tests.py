#!/usr/bin/env python3
"""Transcribes /repo/tests/completion.rs into rocq/theories/RepoTestsCompletion.v."""
import os, re
ROOT = os.path.dirname(os.path.dirname(os.path.abspath(__file__)))
src = open('/repo/tests/completion.rs').read()
STR = r'(?:r#"(?:.*?)"#|"(?:[^"\\]|\\.)*")'
def unq(x):
    x = x.strip()
    if x.startswith('r#"'): return x[3:-2]
    return x[1:-1].encode().decode('unicode_escape')
def lit(x):
    b = x.encode()
    parts = []; cur = ''
    for c in b:
        if c == 10 or c == 13 or c == 9 or c >= 128:
            if cur: parts.append('bs "%s"' % cur.replace('"', '""')); cur = ''
            parts.append('[%d%%N]' % c)
        else: cur += chr(c)
    if cur: parts.append('bs "%s"' % cur.replace('"', '""'))
    return '(' + (' ++ '.join(parts) or '[]') + ')'
def split(value):
    i = value.index('|')
    return value[:i] + value[i+1:], len(value[:i].encode())
def balanced(s, i):
    """s[i] is '(' ; returns the index after its ')', minding strings."""
    d = 0
    while i < len(s):
        m = re.compile(STR, re.S).match(s, i)
        if m: i = m.end(); continue
        if s[i] in '([{': d += 1
        if s[i] in ')]}':
            d -= 1
            if d == 0: return i + 1
        i += 1
def settings(s):
    m = re.search(r'CompletionConfiguration \{(.*?)\n        \}', s, re.S)
    if not m: return 'None'
    hide = re.search(r'hide_auto_complete_proposals: (\w+)', m.group(1)).group(1)
    q = re.search(r'Quotes::(\w+)', m.group(1)).group(1)
    pr = re.search(r'HashMap::from\(\[\("(\w+)"\.to_string\(\), (\w+)\)\]\)', m.group(1))
    return '(Some (mkCS %s Q%s [%s]))' % (hide, q, '(bs "%s", %s)' % pr.groups() if pr else '')
body = src[src.index('fn complete()'):]
aria = re.findall(r'label: "(aria-[^"]*)"', body)
out = []; n = 0
for m in re.finditer(r'(test_completion_for|test_quote_completion|test_tag_completion)\(', body):
    call = body[m.end()-1:balanced(body, m.end()-1)]
    v = re.compile(r'\(\s*(' + STR + ')', re.S).match(call)
    value, off = split(unq(v.group(1)))
    n += 1
    line = src[:src.index('fn complete()') + m.start()].count('\n') + 1
    if m.group(1) == 'test_completion_for':
        cnt = re.search(r'count: Some\((\d+)\)', call)
        items = []
        if 'expected_aria_attributes' in call:
            items = ['(%s, XAny)' % lit(a) for a in aria]
        for im in re.finditer(r'ItemDescription \{', call):
            b = call[im.end()-1:balanced(call, im.end()-1)]
            label = unq(re.search(r'label:\s*(' + STR + ')', b, re.S).group(1))
            rt = re.search(r'result_text:\s*Some\(\s*(' + STR + ')', b, re.S)
            ft = re.search(r'filter_text:\s*Some\(\s*(' + STR + ')', b, re.S)
            if 'not_available: Some(true)' in b: x = 'XNone'
            elif rt: x = 'XText %s' % lit(unq(rt.group(1)))
            else: x = 'XAny'
            items.append('(%s, %s)' % (lit(label), x))
            if ft: items.append('(%s, XFilter %s)' % (lit(label), lit(unq(ft.group(1)))))
        tail = call[call.rindex('],') if '],' in call else 0:]
        out.append('(* line %d *)\nExample t%03d : check_complete %s %s %d %s\n  [%s] = true.\nProof. vm_compute. reflexivity. Qed.' % (
            line, n, settings(call), lit(value), off, '(Some %s)' % cnt.group(1) if cnt else 'None', ';\n   '.join(items)))
    else:
        rest = call[v.end():]
        e = re.match(r',\s*(None|Some\(\s*(' + STR + '))', rest, re.S)
        exp = 'None' if e.group(1) == 'None' else '(Some %s)' % lit(unq(e.group(2)))
        if 'quote' in m.group(1):
            out.append('(* line %d *)\nExample t%03d : check_quote %s %s %d = Ok %s.\nProof. vm_compute. reflexivity. Qed.' % (line, n, settings(call), lit(value), off, exp))
        else:
            out.append('(* line %d *)\nExample t%03d : check_tag %s %d = Ok %s.\nProof. vm_compute. reflexivity. Qed.' % (line, n, lit(value), off, exp))
head = '''(** * The tests of /repo/tests/completion.rs, computed. Generated by
    tools/gen_completion_tests.py. Left out: the documentation texts (BuiltinData omits them). *)
From Verif Require Import Base Stream Scanner Tree Parser TextDoc DataManager BuiltinData Entities Hover Completion.

Definition builtin : provider := html_provider demo_unicode (bs "html5") builtin_data false.
Inductive expectation := XNone | XAny | XText (s : str) | XFilter (s : str).
Definition run (s : option completion_settings) (t : str) (o : nat) : res (list item) :=
  let d := utf16_doc t in
  do roots <- parse demo_unicode t false (get_void_elements [builtin] (bs "html"));
  do_complete demo_unicode d false true [] [builtin] (bs "html") entities s (fun l => l) roots (position_at d o).
Fixpoint no_dup (l : list str) : bool := match l with [] => true | x :: r => negb (mem x r) && no_dup r end.
Definition meets (t : str) (l : list item) (e : str * expectation) : bool :=
  let d := utf16_doc t in
  match snd e, filter (fun i => beq (ci_label i) (fst e)) l with
  | XNone, [] => true
  | XAny, [_] => true
  | XText s, [i] =>
      match ci_edit i with
      | Some (r, new) => beq s (firstn (offset_at d (r_start r)) t ++ new ++ skipn (offset_at d (r_end r)) t)
      | None => true
      end
  | XFilter s, [i] => match ci_filter i with Some f => beq f s | None => false end
  | _, _ => false
  end.
Definition check_complete (s : option completion_settings) (t : str) (o : nat) (count : option nat)
           (l : list (str * expectation)) : bool :=
  match run s t o with
  | Ok items => no_dup (map ci_label items) && forallb (meets t items) l &&
                match count with Some c => length items =? c | None => true end
  | _ => false
  end.
Definition check_quote (s : option completion_settings) (t : str) (o : nat) : res (option str) :=
  let d := utf16_doc t in
  do roots <- parse demo_unicode t false (get_void_elements [builtin] (bs "html"));
  do_quote_complete demo_unicode d false s roots (position_at d o).
Definition check_tag (t : str) (o : nat) : res (option str) :=
  let d := utf16_doc t in
  do roots <- parse demo_unicode t false (get_void_elements [builtin] (bs "html"));
  do_tag_complete demo_unicode d false [builtin] (bs "html") roots (position_at d o).

'''
open(os.path.join(ROOT, 'rocq/theories/RepoTestsCompletion.v'), 'w').write(head + '\n'.join(out) + '\n')
print(n)
