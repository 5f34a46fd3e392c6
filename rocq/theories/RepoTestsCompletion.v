(** * The tests of /repo/tests/completion.rs, computed. Generated by
    tools/gen_completion_tests.py. Left out: the documentation texts (BuiltinData omits them). *)
From Verif Require Import Base Stream Scanner Tree Parser TextDoc DataManager BuiltinData Entities Hover Completion.

Definition builtin : provider := html_provider demo_unicode (bs "html5") builtin_data false.
Inductive expectation := XNone | XAny | XText (s : str) | XFilter (s : str).
Definition run (s : option completion_settings) (t : str) (o : nat) : res (list item) :=
  let d := utf16_doc t in
  do roots <- parse demo_unicode t false (get_void_elements [builtin] (bs "html"));
  do_complete demo_unicode d false true [] [builtin] (bs "html") entities s (fun l => l) roots (position_at d o).
Fixpoint no_dup (l : list str) : bool := match l with [] => true | x :: r => negb (mem x r) && no_dup r end.
Definition meets (t : str) (l : list item) (e : str * expectation) : bool :=
  let d := utf16_doc t in
  match snd e, filter (fun i => beq (ci_label i) (fst e)) l with
  | XNone, [] => true
  | XAny, [_] => true
  | XText s, [i] =>
      match ci_edit i with
      | Some (r, new) => beq s (firstn (offset_at d (r_start r)) t ++ new ++ skipn (offset_at d (r_end r)) t)
      | None => true
      end
  | XFilter s, [i] => match ci_filter i with Some f => beq f s | None => false end
  | _, _ => false
  end.
Definition check_complete (s : option completion_settings) (t : str) (o : nat) (count : option nat)
           (l : list (str * expectation)) : bool :=
  match run s t o with
  | Ok items => no_dup (map ci_label items) && forallb (meets t items) l &&
                match count with Some c => length items =? c | None => true end
  | _ => false
  end.
Definition check_quote (s : option completion_settings) (t : str) (o : nat) : res (option str) :=
  let d := utf16_doc t in
  do roots <- parse demo_unicode t false (get_void_elements [builtin] (bs "html"));
  do_quote_complete demo_unicode d false s roots (position_at d o).
Definition check_tag (t : str) (o : nat) : res (option str) :=
  let d := utf16_doc t in
  do roots <- parse demo_unicode t false (get_void_elements [builtin] (bs "html"));
  do_tag_complete demo_unicode d false [builtin] (bs "html") roots (position_at d o).

(* line 192 *)
Example t001 : check_complete None (bs "<") 1 None
  [((bs "!DOCTYPE"), XText (bs "<!DOCTYPE html>"));
   ((bs "iframe"), XText (bs "<iframe"));
   ((bs "h1"), XText (bs "<h1"));
   ((bs "div"), XText (bs "<div"))] = true.
Proof. vm_compute. reflexivity. Qed.
(* line 223 *)
Example t002 : check_complete None ([10%N] ++ bs "<") 2 None
  [((bs "!DOCTYPE"), XNone)] = true.
Proof. vm_compute. reflexivity. Qed.
(* line 237 *)
Example t003 : check_complete None (bs "< ") 2 None
  [((bs "iframe"), XText (bs "<iframe"));
   ((bs "h1"), XText (bs "<h1"));
   ((bs "div"), XText (bs "<div"))] = true.
Proof. vm_compute. reflexivity. Qed.
(* line 263 *)
Example t004 : check_complete None (bs "<h") 2 None
  [((bs "html"), XText (bs "<html"));
   ((bs "h1"), XText (bs "<h1"));
   ((bs "header"), XText (bs "<header"))] = true.
Proof. vm_compute. reflexivity. Qed.
(* line 288 *)
Example t005 : check_complete None (bs "<input") 6 None
  [((bs "input"), XText (bs "<input"))] = true.
Proof. vm_compute. reflexivity. Qed.
(* line 301 *)
Example t006 : check_complete None (bs "<input") 4 None
  [((bs "input"), XText (bs "<input"))] = true.
Proof. vm_compute. reflexivity. Qed.
(* line 314 *)
Example t007 : check_complete None (bs "<inp") 1 None
  [((bs "input"), XText (bs "<input"))] = true.
Proof. vm_compute. reflexivity. Qed.
(* line 327 *)
Example t008 : check_complete None (bs "<input ") 7 None
  [((bs "type"), XText (bs "<input type=""$1"""));
   ((bs "style"), XText (bs "<input style=""$1"""));
   ((bs "onmousemove"), XText (bs "<input onmousemove=""$1"""))] = true.
Proof. vm_compute. reflexivity. Qed.
(* line 352 *)
Example t009 : check_complete None (bs "<input t") 8 None
  [((bs "type"), XText (bs "<input type=""$1"""));
   ((bs "tabindex"), XText (bs "<input tabindex=""$1"""))] = true.
Proof. vm_compute. reflexivity. Qed.
(* line 372 *)
Example t010 : check_complete None (bs "<input type") 8 None
  [((bs "type"), XText (bs "<input type=""$1"""));
   ((bs "tabindex"), XText (bs "<input tabindex=""$1"""))] = true.
Proof. vm_compute. reflexivity. Qed.
(* line 392 *)
Example t011 : check_complete None (bs "<input type=""text""") 8 None
  [((bs "type"), XText (bs "<input type=""text"""));
   ((bs "tabindex"), XText (bs "<input tabindex=""text"""))] = true.
Proof. vm_compute. reflexivity. Qed.
(* line 412 *)
Example t012 : check_complete None (bs "<input type=""text"" ") 19 None
  [((bs "style"), XText (bs "<input type=""text"" style=""$1"""));
   ((bs "type"), XNone);
   ((bs "size"), XText (bs "<input type=""text"" size=""$1"""))] = true.
Proof. vm_compute. reflexivity. Qed.
(* line 437 *)
Example t013 : check_complete None (bs "<input  type=""text""") 7 None
  [((bs "style"), XText (bs "<input style=""$1"" type=""text"""));
   ((bs "type"), XNone);
   ((bs "size"), XText (bs "<input size=""$1"" type=""text"""))] = true.
Proof. vm_compute. reflexivity. Qed.
(* line 462 *)
Example t014 : check_complete None (bs "<input type=""text"" type=""number"" ") 33 None
  [((bs "style"), XText (bs "<input type=""text"" type=""number"" style=""$1"""));
   ((bs "type"), XNone);
   ((bs "size"), XText (bs "<input type=""text"" type=""number"" size=""$1"""))] = true.
Proof. vm_compute. reflexivity. Qed.
(* line 487 *)
Example t015 : check_complete None (bs "<input type=""text"" s") 20 None
  [((bs "style"), XText (bs "<input type=""text"" style=""$1"""));
   ((bs "src"), XText (bs "<input type=""text"" src=""$1"""));
   ((bs "size"), XText (bs "<input type=""text"" size=""$1"""))] = true.
Proof. vm_compute. reflexivity. Qed.
(* line 512 *)
Example t016 : check_complete None (bs "<input type=""text"" s") 20 None
  [((bs "style"), XText (bs "<input type=""text"" style=""$1"""));
   ((bs "src"), XText (bs "<input type=""text"" src=""$1"""));
   ((bs "size"), XText (bs "<input type=""text"" size=""$1"""))] = true.
Proof. vm_compute. reflexivity. Qed.
(* line 538 *)
Example t017 : check_complete None (bs "<input di type=""text""") 9 None
  [((bs "disabled"), XText (bs "<input disabled type=""text"""));
   ((bs "dir"), XText (bs "<input dir=""$1"" type=""text"""))] = true.
Proof. vm_compute. reflexivity. Qed.
(* line 559 *)
Example t018 : check_complete None (bs "<input disabled  type=""text""") 16 None
  [((bs "dir"), XText (bs "<input disabled dir=""$1"" type=""text"""));
   ((bs "style"), XText (bs "<input disabled style=""$1"" type=""text"""))] = true.
Proof. vm_compute. reflexivity. Qed.
(* line 580 *)
Example t019 : check_complete None (bs "<input type=") 12 None
  [((bs "text"), XText (bs "<input type=""text"""));
   ((bs "checkbox"), XText (bs "<input type=""checkbox"""))] = true.
Proof. vm_compute. reflexivity. Qed.
(* line 600 *)
Example t020 : check_complete None (bs "<input type=""c") 14 None
  [((bs "color"), XText (bs "<input type=""color"));
   ((bs "checkbox"), XText (bs "<input type=""checkbox"))] = true.
Proof. vm_compute. reflexivity. Qed.
(* line 620 *)
Example t021 : check_complete None (bs "<input type=""") 13 None
  [((bs "color"), XText (bs "<input type=""color"));
   ((bs "checkbox"), XText (bs "<input type=""checkbox"))] = true.
Proof. vm_compute. reflexivity. Qed.
(* line 640 *)
Example t022 : check_complete None (bs "<input type= ") 13 None
  [((bs "dir"), XText (bs "<input type= dir=""$1"""));
   ((bs "style"), XText (bs "<input type= style=""$1"""))] = true.
Proof. vm_compute. reflexivity. Qed.
(* line 660 *)
Example t023 : check_complete None (bs "<input src=""c"" type=""color"" ") 26 None
  [((bs "color"), XText (bs "<input src=""c"" type=""color"" "))] = true.
Proof. vm_compute. reflexivity. Qed.
(* line 673 *)
Example t024 : check_complete None (bs "<iframe sandbox=""allow-forms ") 29 None
  [((bs "allow-modals"), XText (bs "<iframe sandbox=""allow-forms allow-modals"))] = true.
Proof. vm_compute. reflexivity. Qed.
(* line 686 *)
Example t025 : check_complete None (bs "<iframe sandbox=""allow-forms allow-modals") 41 None
  [((bs "allow-modals"), XText (bs "<iframe sandbox=""allow-forms allow-modals"))] = true.
Proof. vm_compute. reflexivity. Qed.
(* line 699 *)
Example t026 : check_complete None (bs "<iframe sandbox=""allow-forms all""") 32 None
  [((bs "allow-modals"), XText (bs "<iframe sandbox=""allow-forms allow-modals"""))] = true.
Proof. vm_compute. reflexivity. Qed.
(* line 712 *)
Example t027 : check_complete None (bs "<iframe sandbox=""allow-forms allow-modals """) 30 None
  [((bs "allow-modals"), XText (bs "<iframe sandbox=""allow-forms allow-modals """))] = true.
Proof. vm_compute. reflexivity. Qed.
(* line 725 *)
Example t028 : check_complete None (bs "<input src=""c"" type=color ") 25 None
  [((bs "color"), XText (bs "<input src=""c"" type=""color"" "))] = true.
Proof. vm_compute. reflexivity. Qed.
(* line 738 *)
Example t029 : check_complete None (bs "<div dir=></div>") 9 None
  [((bs "ltr"), XText (bs "<div dir=""ltr""></div>"));
   ((bs "rtl"), XText (bs "<div dir=""rtl""></div>"))] = true.
Proof. vm_compute. reflexivity. Qed.
(* line 758 *)
Example t030 : check_complete None (bs "<ul><>") 5 None
  [((bs "/ul"), XText (bs "<ul></ul>"));
   ((bs "li"), XText (bs "<ul><li>"))] = true.
Proof. vm_compute. reflexivity. Qed.
(* line 778 *)
Example t031 : check_complete None (bs "<ul><li><") 9 None
  [((bs "/li"), XText (bs "<ul><li></li>"));
   ((bs "a"), XText (bs "<ul><li><a"))] = true.
Proof. vm_compute. reflexivity. Qed.
(* line 798 *)
Example t032 : check_complete None (bs "<goo></>") 7 None
  [((bs "/goo"), XText (bs "<goo></goo>"))] = true.
Proof. vm_compute. reflexivity. Qed.
(* line 811 *)
Example t033 : check_complete None (bs "<foo></f") 8 None
  [((bs "/foo"), XText (bs "<foo></foo>"))] = true.
Proof. vm_compute. reflexivity. Qed.
(* line 824 *)
Example t034 : check_complete None (bs "<foo></fo") 8 None
  [((bs "/foo"), XText (bs "<foo></foo>"))] = true.
Proof. vm_compute. reflexivity. Qed.
(* line 837 *)
Example t035 : check_complete None (bs "<foo></fo") 7 None
  [((bs "/foo"), XText (bs "<foo></foo>"))] = true.
Proof. vm_compute. reflexivity. Qed.
(* line 850 *)
Example t036 : check_complete None (bs "<foo></ >") 8 None
  [((bs "/foo"), XText (bs "<foo></foo>"))] = true.
Proof. vm_compute. reflexivity. Qed.
(* line 863 *)
Example t037 : check_complete None (bs "<span></ s") 10 None
  [((bs "/span"), XText (bs "<span></span>"))] = true.
Proof. vm_compute. reflexivity. Qed.
(* line 876 *)
Example t038 : check_complete None (bs "<li><br></ >") 11 None
  [((bs "/li"), XText (bs "<li><br></li>"))] = true.
Proof. vm_compute. reflexivity. Qed.
(* line 889 *)
Example t039 : check_complete None (bs "<li/>") 4 (Some 0)
  [] = true.
Proof. vm_compute. reflexivity. Qed.
(* line 898 *)
Example t040 : check_complete None (bs "  <div/   ") 7 (Some 0)
  [] = true.
Proof. vm_compute. reflexivity. Qed.
(* line 907 *)
Example t041 : check_complete None (bs "<foo><br/></ f>") 14 None
  [((bs "/foo"), XText (bs "<foo><br/></foo>"))] = true.
Proof. vm_compute. reflexivity. Qed.
(* line 920 *)
Example t042 : check_complete None (bs "<li><div/></") 12 None
  [((bs "/li"), XText (bs "<li><div/></li>"))] = true.
Proof. vm_compute. reflexivity. Qed.
(* line 933 *)
Example t043 : check_complete None (bs "<li><br/>") 8 (Some 0)
  [] = true.
Proof. vm_compute. reflexivity. Qed.
(* line 942 *)
Example t044 : check_complete None (bs "<li><br>a/") 10 (Some 0)
  [] = true.
Proof. vm_compute. reflexivity. Qed.
(* line 952 *)
Example t045 : check_complete None (bs "<foo><bar></bar></   ") 18 None
  [((bs "/foo"), XText (bs "<foo><bar></bar></foo>   "))] = true.
Proof. vm_compute. reflexivity. Qed.
(* line 965 *)
Example t046 : check_complete None (bs "<div>" ++ [10%N] ++ bs "  <form>" ++ [10%N] ++ bs "    <div>" ++ [10%N] ++ bs "      <label></label>" ++ [10%N] ++ bs "      <" ++ [10%N] ++ bs "    </div>" ++ [10%N] ++ bs "  </form></div>") 54 None
  [((bs "span"), XText (bs "<div>" ++ [10%N] ++ bs "  <form>" ++ [10%N] ++ bs "    <div>" ++ [10%N] ++ bs "      <label></label>" ++ [10%N] ++ bs "      <span" ++ [10%N] ++ bs "    </div>" ++ [10%N] ++ bs "  </form></div>"));
   ((bs "/div"), XText (bs "<div>" ++ [10%N] ++ bs "  <form>" ++ [10%N] ++ bs "    <div>" ++ [10%N] ++ bs "      <label></label>" ++ [10%N] ++ bs "    </div>" ++ [10%N] ++ bs "    </div>" ++ [10%N] ++ bs "  </form></div>"))] = true.
Proof. vm_compute. reflexivity. Qed.
(* line 989 *)
Example t047 : check_complete None (bs "<body><div><div></div></div></  >") 30 None
  [((bs "/body"), XText (bs "<body><div><div></div></div></body  >"))] = true.
Proof. vm_compute. reflexivity. Qed.
(* line 1002 *)
Example t048 : check_complete None (bs "<body>" ++ [10%N] ++ bs "  <div>" ++ [10%N] ++ bs "    </") 21 None
  [((bs "/div"), XText (bs "<body>" ++ [10%N] ++ bs "  <div>" ++ [10%N] ++ bs "  </div>"))] = true.
Proof. vm_compute. reflexivity. Qed.
(* line 1015 *)
Example t049 : check_complete None (bs "<div><a hre</div>") 11 None
  [((bs "href"), XText (bs "<div><a href=""$1""</div>"))] = true.
Proof. vm_compute. reflexivity. Qed.
(* line 1028 *)
Example t050 : check_complete None (bs "<a><b>foo</b><f>") 14 None
  [((bs "/a"), XText (bs "<a><b>foo</b></a>"));
   ((bs "/f"), XNone)] = true.
Proof. vm_compute. reflexivity. Qed.
(* line 1048 *)
Example t051 : check_complete None (bs "<a><b>foo</b>< bar.") 14 None
  [((bs "/a"), XText (bs "<a><b>foo</b></a> bar."));
   ((bs "/bar"), XNone)] = true.
Proof. vm_compute. reflexivity. Qed.
(* line 1068 *)
Example t052 : check_complete None (bs "<div><h1><br><span></span><img></ </h1></div>") 33 None
  [((bs "/h1"), XText (bs "<div><h1><br><span></span><img></h1> </h1></div>"))] = true.
Proof. vm_compute. reflexivity. Qed.
(* line 1081 *)
Example t053 : check_complete None (bs "<div>") 5 None
  [((bs "</div>"), XText (bs "<div>$0</div>"))] = true.
Proof. vm_compute. reflexivity. Qed.
(* line 1094 *)
Example t054 : check_complete (Some (mkCS true QDouble [])) (bs "<div>") 5 None
  [((bs "</div>"), XNone)] = true.
Proof. vm_compute. reflexivity. Qed.
(* line 1111 *)
Example t055 : check_complete None (bs "<div d") 6 None
  [((bs "data-"), XText (bs "<div data-$1=""$2"""))] = true.
Proof. vm_compute. reflexivity. Qed.
(* line 1124 *)
Example t056 : check_complete None (bs "<div no-data-test=""no-data"" d") 29 None
  [((bs "no-data-test"), XNone)] = true.
Proof. vm_compute. reflexivity. Qed.
(* line 1137 *)
Example t057 : check_complete None (bs "<div data-custom=""test""><div d") 30 None
  [((bs "data-"), XText (bs "<div data-custom=""test""><div data-$1=""$2"""));
   ((bs "data-custom"), XText (bs "<div data-custom=""test""><div data-custom=""$1"""))] = true.
Proof. vm_compute. reflexivity. Qed.
(* line 1157 *)
Example t058 : check_complete None (bs "<div data-custom=""test""><div data-custom-two=""2""></div></div>\n <div d") 70 None
  [((bs "data-"), XText (bs "<div data-custom=""test""><div data-custom-two=""2""></div></div>\n <div data-$1=""$2"""));
   ((bs "data-custom"), XText (bs "<div data-custom=""test""><div data-custom-two=""2""></div></div>\n <div data-custom=""$1"""));
   ((bs "data-custom-two"), XText (bs "<div data-custom=""test""><div data-custom-two=""2""></div></div>\n <div data-custom-two=""$1"""))] = true.
Proof. vm_compute. reflexivity. Qed.
(* line 1188 *)
Example t059 : check_complete None (bs "<body data-ng-app=""""><div id=""first"" data-ng-include="" 'firstdoc.html' ""></div><div id=""second"" inc></div></body>") 99 None
  [((bs "data-ng-include"), XText (bs "<body data-ng-app=""""><div id=""first"" data-ng-include="" 'firstdoc.html' ""></div><div id=""second"" data-ng-include=""$1""></div></body>"))] = true.
Proof. vm_compute. reflexivity. Qed.
(* line 1213 *)
Example t060 : check_complete None (bs "<d") 2 None
  [((bs "div"), XText (bs "<div"))] = true.
Proof. vm_compute. reflexivity. Qed.
(* line 1235 *)
Example t061 : check_complete None (bs "<LI></") 6 None
  [((bs "/LI"), XText (bs "<LI></LI>"));
   ((bs "/li"), XNone)] = true.
Proof. vm_compute. reflexivity. Qed.
(* line 1255 *)
Example t062 : check_complete None (bs "<lI></") 6 None
  [((bs "/lI"), XText (bs "<lI></lI>"))] = true.
Proof. vm_compute. reflexivity. Qed.
(* line 1268 *)
Example t063 : check_complete None (bs "<iNpUt ") 7 None
  [((bs "type"), XText (bs "<iNpUt type=""$1"""))] = true.
Proof. vm_compute. reflexivity. Qed.
(* line 1281 *)
Example t064 : check_complete None (bs "<INPUT TYPE=") 12 None
  [((bs "color"), XText (bs "<INPUT TYPE=""color"""))] = true.
Proof. vm_compute. reflexivity. Qed.
(* line 1294 *)
Example t065 : check_complete None (bs "<dIv>") 5 None
  [((bs "</dIv>"), XText (bs "<dIv>$0</dIv>"))] = true.
Proof. vm_compute. reflexivity. Qed.
(* line 1312 *)
Example t066 : check_complete None (bs "<script id=""entry-template"" type=""text/x-handlebars-template""> < </script>") 64 None
  [((bs "div"), XText (bs "<script id=""entry-template"" type=""text/x-handlebars-template""> <div </script>"))] = true.
Proof. vm_compute. reflexivity. Qed.
(* line 1332 *)
Example t067 : check_complete None (bs "<script id=""html-template"" type=""text/html""> < </script>") 46 None
  [((bs "div"), XText (bs "<script id=""html-template"" type=""text/html""> <div </script>"))] = true.
Proof. vm_compute. reflexivity. Qed.
(* line 1537 *)
Example t068 : check_complete None (bs "<div  > </div >") 6 None
  [((bs "aria-activedescendant"), XAny);
   ((bs "aria-atomic"), XAny);
   ((bs "aria-autocomplete"), XAny);
   ((bs "aria-busy"), XAny);
   ((bs "aria-checked"), XAny);
   ((bs "aria-colcount"), XAny);
   ((bs "aria-colindex"), XAny);
   ((bs "aria-colspan"), XAny);
   ((bs "aria-controls"), XAny);
   ((bs "aria-current"), XAny);
   ((bs "aria-describedby"), XAny);
   ((bs "aria-disabled"), XAny);
   ((bs "aria-dropeffect"), XAny);
   ((bs "aria-errormessage"), XAny);
   ((bs "aria-expanded"), XAny);
   ((bs "aria-flowto"), XAny);
   ((bs "aria-grabbed"), XAny);
   ((bs "aria-haspopup"), XAny);
   ((bs "aria-hidden"), XAny);
   ((bs "aria-invalid"), XAny);
   ((bs "aria-label"), XAny);
   ((bs "aria-labelledby"), XAny);
   ((bs "aria-level"), XAny);
   ((bs "aria-live"), XAny);
   ((bs "aria-modal"), XAny);
   ((bs "aria-multiline"), XAny);
   ((bs "aria-multiselectable"), XAny);
   ((bs "aria-orientation"), XAny);
   ((bs "aria-owns"), XAny);
   ((bs "aria-placeholder"), XAny);
   ((bs "aria-posinset"), XAny);
   ((bs "aria-pressed"), XAny);
   ((bs "aria-readonly"), XAny);
   ((bs "aria-relevant"), XAny);
   ((bs "aria-required"), XAny);
   ((bs "aria-roledescription"), XAny);
   ((bs "aria-rowcount"), XAny);
   ((bs "aria-rowindex"), XAny);
   ((bs "aria-rowspan"), XAny);
   ((bs "aria-selected"), XAny);
   ((bs "aria-setsize"), XAny);
   ((bs "aria-sort"), XAny);
   ((bs "aria-valuemax"), XAny);
   ((bs "aria-valuemin"), XAny);
   ((bs "aria-valuenow"), XAny);
   ((bs "aria-valuetext"), XAny)] = true.
Proof. vm_compute. reflexivity. Qed.
(* line 1546 *)
Example t069 : check_complete None (bs "<span  > </span >") 7 None
  [((bs "aria-activedescendant"), XAny);
   ((bs "aria-atomic"), XAny);
   ((bs "aria-autocomplete"), XAny);
   ((bs "aria-busy"), XAny);
   ((bs "aria-checked"), XAny);
   ((bs "aria-colcount"), XAny);
   ((bs "aria-colindex"), XAny);
   ((bs "aria-colspan"), XAny);
   ((bs "aria-controls"), XAny);
   ((bs "aria-current"), XAny);
   ((bs "aria-describedby"), XAny);
   ((bs "aria-disabled"), XAny);
   ((bs "aria-dropeffect"), XAny);
   ((bs "aria-errormessage"), XAny);
   ((bs "aria-expanded"), XAny);
   ((bs "aria-flowto"), XAny);
   ((bs "aria-grabbed"), XAny);
   ((bs "aria-haspopup"), XAny);
   ((bs "aria-hidden"), XAny);
   ((bs "aria-invalid"), XAny);
   ((bs "aria-label"), XAny);
   ((bs "aria-labelledby"), XAny);
   ((bs "aria-level"), XAny);
   ((bs "aria-live"), XAny);
   ((bs "aria-modal"), XAny);
   ((bs "aria-multiline"), XAny);
   ((bs "aria-multiselectable"), XAny);
   ((bs "aria-orientation"), XAny);
   ((bs "aria-owns"), XAny);
   ((bs "aria-placeholder"), XAny);
   ((bs "aria-posinset"), XAny);
   ((bs "aria-pressed"), XAny);
   ((bs "aria-readonly"), XAny);
   ((bs "aria-relevant"), XAny);
   ((bs "aria-required"), XAny);
   ((bs "aria-roledescription"), XAny);
   ((bs "aria-rowcount"), XAny);
   ((bs "aria-rowindex"), XAny);
   ((bs "aria-rowspan"), XAny);
   ((bs "aria-selected"), XAny);
   ((bs "aria-setsize"), XAny);
   ((bs "aria-sort"), XAny);
   ((bs "aria-valuemax"), XAny);
   ((bs "aria-valuemin"), XAny);
   ((bs "aria-valuenow"), XAny);
   ((bs "aria-valuetext"), XAny)] = true.
Proof. vm_compute. reflexivity. Qed.
(* line 1555 *)
Example t070 : check_complete None (bs "<input  > </input >") 8 None
  [((bs "aria-activedescendant"), XAny);
   ((bs "aria-atomic"), XAny);
   ((bs "aria-autocomplete"), XAny);
   ((bs "aria-busy"), XAny);
   ((bs "aria-checked"), XAny);
   ((bs "aria-colcount"), XAny);
   ((bs "aria-colindex"), XAny);
   ((bs "aria-colspan"), XAny);
   ((bs "aria-controls"), XAny);
   ((bs "aria-current"), XAny);
   ((bs "aria-describedby"), XAny);
   ((bs "aria-disabled"), XAny);
   ((bs "aria-dropeffect"), XAny);
   ((bs "aria-errormessage"), XAny);
   ((bs "aria-expanded"), XAny);
   ((bs "aria-flowto"), XAny);
   ((bs "aria-grabbed"), XAny);
   ((bs "aria-haspopup"), XAny);
   ((bs "aria-hidden"), XAny);
   ((bs "aria-invalid"), XAny);
   ((bs "aria-label"), XAny);
   ((bs "aria-labelledby"), XAny);
   ((bs "aria-level"), XAny);
   ((bs "aria-live"), XAny);
   ((bs "aria-modal"), XAny);
   ((bs "aria-multiline"), XAny);
   ((bs "aria-multiselectable"), XAny);
   ((bs "aria-orientation"), XAny);
   ((bs "aria-owns"), XAny);
   ((bs "aria-placeholder"), XAny);
   ((bs "aria-posinset"), XAny);
   ((bs "aria-pressed"), XAny);
   ((bs "aria-readonly"), XAny);
   ((bs "aria-relevant"), XAny);
   ((bs "aria-required"), XAny);
   ((bs "aria-roledescription"), XAny);
   ((bs "aria-rowcount"), XAny);
   ((bs "aria-rowindex"), XAny);
   ((bs "aria-rowspan"), XAny);
   ((bs "aria-selected"), XAny);
   ((bs "aria-setsize"), XAny);
   ((bs "aria-sort"), XAny);
   ((bs "aria-valuemax"), XAny);
   ((bs "aria-valuemin"), XAny);
   ((bs "aria-valuenow"), XAny);
   ((bs "aria-valuetext"), XAny)] = true.
Proof. vm_compute. reflexivity. Qed.
(* line 1569 *)
Example t071 : check_complete (Some (mkCS false QDouble [(bs "html5", false)])) (bs "<") 1 None
  [((bs "div"), XNone)] = true.
Proof. vm_compute. reflexivity. Qed.
(* line 1586 *)
Example t072 : check_complete (Some (mkCS false QDouble [])) (bs "<div clas") 9 None
  [((bs "class"), XText (bs "<div class=""$1"""))] = true.
Proof. vm_compute. reflexivity. Qed.
(* line 1603 *)
Example t073 : check_complete (Some (mkCS false QSingle [])) (bs "<div clas") 9 None
  [((bs "class"), XText (bs "<div class='$1'"))] = true.
Proof. vm_compute. reflexivity. Qed.
(* line 1620 *)
Example t074 : check_complete (Some (mkCS false QNone [])) (bs "<div clas") 9 None
  [((bs "class"), XText (bs "<div class=$1"))] = true.
Proof. vm_compute. reflexivity. Qed.
(* line 1642 *)
Example t075 : check_quote None (bs "<a foo=") 7 = Ok (Some (bs """$1""")).
Proof. vm_compute. reflexivity. Qed.
(* line 1643 *)
Example t076 : check_quote (Some (mkCS false QSingle [])) (bs "<a foo=") 7 = Ok (Some (bs "'$1'")).
Proof. vm_compute. reflexivity. Qed.
(* line 1652 *)
Example t077 : check_quote (Some (mkCS false QNone [])) (bs "<a foo=") 7 = Ok None.
Proof. vm_compute. reflexivity. Qed.
(* line 1661 *)
Example t078 : check_quote None (bs "<a foo==") 7 = Ok None.
Proof. vm_compute. reflexivity. Qed.
(* line 1662 *)
Example t079 : check_quote None (bs "<a foo=""bar""") 7 = Ok None.
Proof. vm_compute. reflexivity. Qed.
(* line 1663 *)
Example t080 : check_quote None (bs "<a foo=></a>") 7 = Ok (Some (bs """$1""")).
Proof. vm_compute. reflexivity. Qed.
(* line 1664 *)
Example t081 : check_quote None (bs "<a foo=""bar=""") 12 = Ok None.
Proof. vm_compute. reflexivity. Qed.
(* line 1665 *)
Example t082 : check_quote None (bs "<a baz= foo=""bar"">") 7 = Ok (Some (bs """$1""")).
Proof. vm_compute. reflexivity. Qed.
(* line 1666 *)
Example t083 : check_quote None (bs "<a>< foo= /a>") 9 = Ok None.
Proof. vm_compute. reflexivity. Qed.
(* line 1667 *)
Example t084 : check_quote None (bs "<a></ foo= a>") 10 = Ok None.
Proof. vm_compute. reflexivity. Qed.
(* line 1668 *)
Example t085 : check_quote None (bs "<a foo=""bar"" \n baz= ></a>") 20 = Ok (Some (bs """$1""")).
Proof. vm_compute. reflexivity. Qed.
(* line 1678 *)
Example t086 : check_tag (bs "<div>") 5 = Ok (Some (bs "$0</div>")).
Proof. vm_compute. reflexivity. Qed.
(* line 1679 *)
Example t087 : check_tag (bs "<div></div>") 5 = Ok None.
Proof. vm_compute. reflexivity. Qed.
(* line 1680 *)
Example t088 : check_tag (bs "<div class="""">") 14 = Ok (Some (bs "$0</div>")).
Proof. vm_compute. reflexivity. Qed.
(* line 1681 *)
Example t089 : check_tag (bs "<img>") 5 = Ok None.
Proof. vm_compute. reflexivity. Qed.
(* line 1682 *)
Example t090 : check_tag (bs "<div><br></") 11 = Ok (Some (bs "div>")).
Proof. vm_compute. reflexivity. Qed.
(* line 1683 *)
Example t091 : check_tag (bs "<div><br><span></span></") 24 = Ok (Some (bs "div>")).
Proof. vm_compute. reflexivity. Qed.
(* line 1684 *)
Example t092 : check_tag (bs "<div><h1><br><span></span><img></ </h1></div>") 33 = Ok (Some (bs "h1>")).
Proof. vm_compute. reflexivity. Qed.
(* line 1688 *)
Example t093 : check_tag (bs "<ng-template><td><ng-template></   </td> </ng-template>") 32 = Ok (Some (bs "ng-template>")).
Proof. vm_compute. reflexivity. Qed.
(* line 1692 *)
Example t094 : check_tag (bs "<div><br></>") 11 = Ok (Some (bs "div")).
Proof. vm_compute. reflexivity. Qed.
