(** Tests of /repo/tests/hover.rs transcribed.
    They validate the model's fidelity; they are tests, not proofs. The provider holds
    the entry for [html] of the built-in data only. *)
From Verif Require Import Base Stream Scanner Tree Parser TextDoc DataManager Entities Hover.

Definition html_data_entry : html_data := mkData
  (Some [mkTag (bs "html") (Some (DMarkup (mkMarkup Markdown (bs "The html element represents the root of an HTML document."))))
           [] (Some [mkRef (bs "MDN Reference") (bs "https://developer.mozilla.org/docs/Web/HTML/Element/html")]) None])
  None None.
(** The cursor is at the bar. *)
Fixpoint bar (s : str) : nat := match s with [] => 0 | c :: r => if (c =? 124)%N then 0 else S (bar r) end.
Definition hover_test (value : str) (opts : hover_settings) : res (option (hover_contents * nat * str)) :=
  let o := bar value in
  let text := firstn o value ++ skipn (S o) value in
  let d := utf16_doc text in
  do roots <- parse demo_unicode text false html5_void;
  do h <- do_hover demo_unicode d false (does_support_markdown None) []
            [html_provider demo_unicode (bs "html5") html_data_entry false] (bs "html") entities opts (position_at d o) roots;
  match h with
  | Some (mkHover c (Some r)) =>
      do x <- slice text (offset_at d (r_start r)) (offset_at d (r_end r));
      Ok (Some (c, offset_at d (r_start r), x))
  | _ => Ok None
  end.
Definition html_text : str := bs "The html element represents the root of an HTML document.".
Definition html_link : str := bs "[MDN Reference](https://developer.mozilla.org/docs/Web/HTML/Element/html)".
Definition html_at (o : nat) : res (option (hover_contents * nat * str)) :=
  Ok (Some (HMarkup (mkMarkup Markdown (html_text ++ [10%N; 10%N] ++ html_link)), o, bs "html")).
Definition nbsp_at : res (option (hover_contents * nat * str)) :=
  Ok (Some (HMarkup (mkMarkup PlainText (bs "Character entity representing '" ++ [194%N; 160%N] ++ bs "', unicode equivalent 'U+00A0'")), 7, bs "nbsp;")).
Definition both : hover_settings := mkHS true true.
Example hover_0 : hover_test (bs "|<html></html>") both = Ok None.
Proof. vm_compute. reflexivity. Qed.
Example hover_1 : hover_test (bs "<|html></html>") both = html_at 1.
Proof. vm_compute. reflexivity. Qed.
Example hover_2 : hover_test (bs "<h|tml></html>") both = html_at 1.
Proof. vm_compute. reflexivity. Qed.
Example hover_3 : hover_test (bs "<htm|l></html>") both = html_at 1.
Proof. vm_compute. reflexivity. Qed.
Example hover_4 : hover_test (bs "<html|></html>") both = html_at 1.
Proof. vm_compute. reflexivity. Qed.
Example hover_5 : hover_test (bs "<html>|</html>") both = Ok None.
Proof. vm_compute. reflexivity. Qed.
Example hover_6 : hover_test (bs "<html><|/html>") both = Ok None.
Proof. vm_compute. reflexivity. Qed.
Example hover_7 : hover_test (bs "<html></|html>") both = html_at 8.
Proof. vm_compute. reflexivity. Qed.
Example hover_8 : hover_test (bs "<html></h|tml>") both = html_at 8.
Proof. vm_compute. reflexivity. Qed.
Example hover_9 : hover_test (bs "<html></ht|ml>") both = html_at 8.
Proof. vm_compute. reflexivity. Qed.
Example hover_10 : hover_test (bs "<html></htm|l>") both = html_at 8.
Proof. vm_compute. reflexivity. Qed.
Example hover_11 : hover_test (bs "<html></html|>") both = html_at 8.
Proof. vm_compute. reflexivity. Qed.
Example hover_12 : hover_test (bs "<html></html>|") both = Ok None.
Proof. vm_compute. reflexivity. Qed.
Example hover_13 : hover_test (bs "<html>|&nbsp;</html>") both = Ok None.
Proof. vm_compute. reflexivity. Qed.
Example hover_14 : hover_test (bs "<html>&|nbsp;</html>") both = nbsp_at.
Proof. vm_compute. reflexivity. Qed.
Example hover_15 : hover_test (bs "<html>&n|bsp;</html>") both = nbsp_at.
Proof. vm_compute. reflexivity. Qed.
Example hover_16 : hover_test (bs "<html>&nb|sp;</html>") both = nbsp_at.
Proof. vm_compute. reflexivity. Qed.
Example hover_17 : hover_test (bs "<html>&nbs|p;</html>") both = nbsp_at.
Proof. vm_compute. reflexivity. Qed.
Example hover_18 : hover_test (bs "<html>&nbsp|;</html>") both = nbsp_at.
Proof. vm_compute. reflexivity. Qed.
Example hover_19 : hover_test (bs "<html>&nbsp;|</html>") both = Ok None.
Proof. vm_compute. reflexivity. Qed.
Example hover_20 : hover_test (bs "<html|></html>") (mkHS false true) = Ok (Some (HMarkup (mkMarkup Markdown html_link), 1, bs "html")).
Proof. vm_compute. reflexivity. Qed.
Example hover_21 : hover_test (bs "<html|></html>") (mkHS true false) = Ok (Some (HMarkup (mkMarkup Markdown html_text), 1, bs "html")).
Proof. vm_compute. reflexivity. Qed.
