(** * The tests of /repo/tests/formatter.rs on the model

    test.sh, 1-2, leaves the formatter tests out. The tests that write white space
    around '=' do not hold: a scanner that has read [=] and white space looks for an
    attribute name (html_scanner.rs:318-322), so the value is lost, as
    [spaced_value_refuted] shows. They are transcribed here without that space. *)
From Verif Require Import Base Stream Scanner Tree Parser TextDoc Formatter.

Definition text (l : list string) : str := join [LF] (map bs l).
(** The text after the edits, as computed by the test helper, 37-43 *)
Definition apply_edits (d : textdoc) (es : list text_edit) : str :=
  fold_left (fun _ e =>
    firstn (offset_at d (r_start (te_range e))) (d_text d) ++ te_text e
    ++ skipn (offset_at d (r_end (te_range e))) (d_text d)) es (d_text d).
Definition format_doc (o : format_options) (s : str) : res str :=
  let d := utf16_doc s in
  do es <- format demo_unicode d None o false; Ok (apply_edits d es).
Definition format_range (o : format_options) (s : str) (a b : nat) : res str :=
  let d := utf16_doc s in
  do es <- format demo_unicode d (Some (range_at d a b)) o false; Ok (apply_edits d es).

Definition two := mkFmt 2 true false (Some 120) None true (max_preserve_new_lines default_options) false.
Definition with_empty b := mkFmt 2 true b (Some 120) None true (max_preserve_new_lines default_options) false.
Definition with_wrap n := mkFmt 2 true false (Some n) None true (max_preserve_new_lines default_options) false.

Local Open Scope string_scope.
Example full_document :
  format_doc two (text ["<div  class=""foo"">"; "<br>"; " </div>"]) =
  Ok (text ["<div class=""foo"">"; "  <br />"; "</div>"]).
Proof. vm_compute. reflexivity. Qed.

(** The first line as the tests write it *)
Theorem spaced_value_refuted :
  format_doc two (text ["<div  class = ""foo"">"; "<br>"; " </div>"]) =
  Ok (text ["<div class= foo>"; "  <br />"; "</div>"]).
Proof. vm_compute. reflexivity. Qed.

Example text_content :
  format_doc two (text ["<div  class=""foo"">"; "text  text2"; " </div>"]) =
  Ok (text ["<div class=""foo"">"; "  text text2"; "</div>"]).
Proof. vm_compute. reflexivity. Qed.

Example inline_text_content :
  format_doc two (text ["<div  class=""foo"">  text  text2  </div>"]) =
  Ok (text ["<div class=""foo"">text text2</div>"]).
Proof. vm_compute. reflexivity. Qed.

Example brother_text_content :
  format_doc two (text ["<div  class=""foo"">"; "text  text2"; "<div></div>"; "text3  text4"; " </div>"]) =
  Ok (text ["<div class=""foo"">"; "  text text2"; "  <div></div>"; "  text3 text4"; "</div>"]).
Proof. vm_compute. reflexivity. Qed.

Example indent_empty_lines_false :
  format_doc (with_empty false) (text ["<div>"; " "; "<div>"; ""; "</div>"; ""; "</div>"]) =
  Ok (text ["<div>"; ""; "  <div>"; ""; "  </div>"; ""; "</div>"]).
Proof. vm_compute. reflexivity. Qed.
Example indent_empty_lines_true :
  format_doc (with_empty true) (text ["<div>"; " "; "<div>"; ""; "</div>"; ""; "</div>"]) =
  Ok (text ["<div>"; "  "; "  <div>"; "    "; "  </div>"; "  "; "</div>"]).
Proof. vm_compute. reflexivity. Qed.

Example self_closing_tag :
  format_doc default_options (text ["<img  src=""https://exsample.com""/>"]) =
  Ok (text ["<img src=""https://exsample.com"" />"]).
Proof. vm_compute. reflexivity. Qed.

Definition long_div := "<div title=""a div container"" data-id=""123456"" data-type=""node"">content</div>".
Example wrap_line_length_70 :
  format_doc (with_wrap 70) (text [long_div]) =
  Ok (text ["<div title=""a div container"" data-id=""123456"" data-type=""node"">"; "  content"; "</div>"]).
Proof. vm_compute. reflexivity. Qed.
Example wrap_line_length_60 :
  format_doc (with_wrap 60) (text [long_div]) =
  Ok (text ["<div"; "  title=""a div container"""; "  data-id=""123456"""; "  data-type=""node"""; ">";
            "  content"; "</div>"]).
Proof. vm_compute. reflexivity. Qed.

Example self_closing_tag_wrap_line_length :
  format_doc (mkFmt 4 true false (Some 70) (Some 2) true (max_preserve_new_lines default_options) false)
    (text ["<img  src=""https://exsample.com"" title=""a image container"" data-id=""123456"" data-type=""node""/>"]) =
  Ok (text ["<img"; "  src=""https://exsample.com"""; "  title=""a image container"""; "  data-id=""123456""";
            "  data-type=""node"""; "/>"]).
Proof. vm_compute. reflexivity. Qed.

Example preserve_new_lines_false :
  format_doc (mkFmt 2 true false (Some 120) None false (max_preserve_new_lines default_options) false)
    (text ["<div  class=""foo"">"; ""; ""; "<br>"; " </div>"]) =
  Ok (text ["<div class=""foo"">"; "  <br />"; "</div>"]).
Proof. vm_compute. reflexivity. Qed.

Example max_preserve_new_lines_1 :
  format_doc (mkFmt 2 true false (Some 120) None true (Some 1) false)
    (text ["<div  class=""foo"">"; ""; ""; "<br>"; " </div>"]) =
  Ok (text ["<div class=""foo"">"; ""; "  <br />"; "</div>"]).
Proof. vm_compute. reflexivity. Qed.

Example end_with_newline_true :
  format_doc (mkFmt 2 true false (Some 120) None true (max_preserve_new_lines default_options) true)
    (text ["<div  class=""foo"">"; "<br>"; " </div>"]) =
  Ok (text ["<div class=""foo"">"; "  <br />"; "</div>"; ""]).
Proof. vm_compute. reflexivity. Qed.

(** The test "range", 330-351, does not hold either: the edit starts one line too far down and its text is not
    indented, so that the element appears twice. The test selects up to 38, the
    position of the second bar with the first one still counted. *)
Example range_refuted :
  format_range (mkFmt 2 true false (Some 120) None true (max_preserve_new_lines default_options) true)
    (text ["<div  class=""foo"">"; "  <img  src=""foo"">"; " </div>"]) 21 38 =
  Ok (text ["<div  class=""foo"">"; "  <img  src=""foo"">"; "<img src=""foo"" />"; " </div>"]).
Proof. vm_compute. reflexivity. Qed.
