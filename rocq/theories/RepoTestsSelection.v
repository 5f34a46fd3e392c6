(** Tests of /repo/tests/selection_range.rs transcribed (generated by
    tools/gen_selection_tests.py). They validate the model's fidelity; they are
    tests, not proofs. *)
From Verif Require Import Base Stream Scanner Tree Parser TextDoc SelectionRange.

(** The cursor is at offset [o]; the answer as (offset, text) pairs. *)
Definition selection (s : str) (o : nat) : res (list (nat * str)) :=
  let d := utf16_doc s in
  do roots <- parse demo_unicode s false html5_void;
  do l <- get_selection_ranges demo_unicode d [position_at d o] roots false;
  Ok (map (fun r => (offset_at d (r_start r), sub s (offset_at d (r_start r)) (offset_at d (r_end r)))) (concat l)).

Example selection_0 : selection (bs "<div>foo</div>") 4 =
  Ok [(1, bs "div"); (0, bs "<div>foo</div>")].
Proof. vm_compute. reflexivity. Qed.

Example selection_1 : selection (bs "<div>foo</div>") 1 =
  Ok [(1, bs "div"); (0, bs "<div>foo</div>")].
Proof. vm_compute. reflexivity. Qed.

Example selection_2 : selection (bs "<div>foo</div>") 2 =
  Ok [(1, bs "div"); (0, bs "<div>foo</div>")].
Proof. vm_compute. reflexivity. Qed.

Example selection_3 : selection (bs "<div>foo</div>") 5 =
  Ok [(5, bs "foo"); (0, bs "<div>foo</div>")].
Proof. vm_compute. reflexivity. Qed.

Example selection_4 : selection (bs "<div>foo</div>") 6 =
  Ok [(5, bs "foo"); (0, bs "<div>foo</div>")].
Proof. vm_compute. reflexivity. Qed.

Example selection_5 : selection (bs "<div>foo</div>") 8 =
  Ok [(5, bs "foo"); (0, bs "<div>foo</div>")].
Proof. vm_compute. reflexivity. Qed.

Example selection_6 : selection (bs "<div>foo</div>") 9 =
  Ok [(0, bs "<div>foo</div>")].
Proof. vm_compute. reflexivity. Qed.

Example selection_7 : selection (bs "<div>foo</div>") 10 =
  Ok [(10, bs "div"); (0, bs "<div>foo</div>")].
Proof. vm_compute. reflexivity. Qed.

Example selection_8 : selection (bs "<div>foo</div>") 12 =
  Ok [(10, bs "div"); (0, bs "<div>foo</div>")].
Proof. vm_compute. reflexivity. Qed.

Example selection_9 : selection (bs "<div>foo</div>") 13 =
  Ok [(10, bs "div"); (0, bs "<div>foo</div>")].
Proof. vm_compute. reflexivity. Qed.

Example selection_10 : selection (bs "<div class=""foo"">foo</div>") 5 =
  Ok [(5, bs "class"); (5, bs "class=""foo"""); (1, bs "div class=""foo"""); (0, bs "<div class=""foo"">foo</div>")].
Proof. vm_compute. reflexivity. Qed.

Example selection_11 : selection (bs "<div class=""foo"">foo</div>") 7 =
  Ok [(5, bs "class"); (5, bs "class=""foo"""); (1, bs "div class=""foo"""); (0, bs "<div class=""foo"">foo</div>")].
Proof. vm_compute. reflexivity. Qed.

Example selection_12 : selection (bs "<div class=""foo"">foo</div>") 10 =
  Ok [(5, bs "class"); (5, bs "class=""foo"""); (1, bs "div class=""foo"""); (0, bs "<div class=""foo"">foo</div>")].
Proof. vm_compute. reflexivity. Qed.

Example selection_13 : selection (bs "<div class=""foo"">foo</div>") 11 =
  Ok [(11, bs """foo"""); (5, bs "class=""foo"""); (1, bs "div class=""foo"""); (0, bs "<div class=""foo"">foo</div>")].
Proof. vm_compute. reflexivity. Qed.

Example selection_14 : selection (bs "<div class=""foo"">foo</div>") 16 =
  Ok [(11, bs """foo"""); (5, bs "class=""foo"""); (1, bs "div class=""foo"""); (0, bs "<div class=""foo"">foo</div>")].
Proof. vm_compute. reflexivity. Qed.

Example selection_15 : selection (bs "<div class=""foo"">foo</div>") 12 =
  Ok [(12, bs "foo"); (11, bs """foo"""); (5, bs "class=""foo"""); (1, bs "div class=""foo"""); (0, bs "<div class=""foo"">foo</div>")].
Proof. vm_compute. reflexivity. Qed.

Example selection_16 : selection (bs "<div class=""foo"">foo</div>") 13 =
  Ok [(12, bs "foo"); (11, bs """foo"""); (5, bs "class=""foo"""); (1, bs "div class=""foo"""); (0, bs "<div class=""foo"">foo</div>")].
Proof. vm_compute. reflexivity. Qed.

Example selection_17 : selection (bs "<div class=foo>foo</div>") 11 =
  Ok [(11, bs "foo"); (5, bs "class=foo"); (1, bs "div class=foo"); (0, bs "<div class=foo>foo</div>")].
Proof. vm_compute. reflexivity. Qed.

Example selection_18 : selection (bs "<div class=""foo"" id=""bar"">foo</div>") 21 =
  Ok [(21, bs "bar"); (20, bs """bar"""); (17, bs "id=""bar"""); (1, bs "div class=""foo"" id=""bar"""); (0, bs "<div class=""foo"" id=""bar"">foo</div>")].
Proof. vm_compute. reflexivity. Qed.

Example selection_19 : selection (bs "<br class=""foo""/>") 11 =
  Ok [(11, bs "foo"); (10, bs """foo"""); (4, bs "class=""foo"""); (1, bs "br class=""foo"""); (0, bs "<br class=""foo""/>")].
Proof. vm_compute. reflexivity. Qed.

Example selection_20 : selection (bs "<br class=""foo""/>") 2 =
  Ok [(1, bs "br class=""foo"""); (0, bs "<br class=""foo""/>")].
Proof. vm_compute. reflexivity. Qed.

Example selection_21 : selection (bs "<div><div>foo</div></div>") 10 =
  Ok [(10, bs "foo"); (5, bs "<div>foo</div>"); (0, bs "<div><div>foo</div></div>")].
Proof. vm_compute. reflexivity. Qed.

Example selection_22 : selection (bs "<div>
<p>foo</p>
</div>") 9 =
  Ok [(9, bs "foo"); (6, bs "<p>foo</p>"); (5, bs "
<p>foo</p>
"); (0, bs "<div>
<p>foo</p>
</div>")].
Proof. vm_compute. reflexivity. Qed.

Example selection_23 : selection (bs "<meta charset='UTF-8'>") 15 =
  Ok [(15, bs "UTF-8"); (14, bs "'UTF-8'"); (6, bs "charset='UTF-8'"); (1, bs "meta charset='UTF-8'"); (0, bs "<meta charset='UTF-8'>")].
Proof. vm_compute. reflexivity. Qed.

Example selection_24 : selection (bs "<meta charset='UTF-8'>") 7 =
  Ok [(6, bs "charset"); (6, bs "charset='UTF-8'"); (1, bs "meta charset='UTF-8'"); (0, bs "<meta charset='UTF-8'>")].
Proof. vm_compute. reflexivity. Qed.

Example selection_25 : selection (bs "<html><meta charset='UTF-8'></html>") 13 =
  Ok [(12, bs "charset"); (12, bs "charset='UTF-8'"); (7, bs "meta charset='UTF-8'"); (6, bs "<meta charset='UTF-8'>"); (0, bs "<html><meta charset='UTF-8'></html>")].
Proof. vm_compute. reflexivity. Qed.

Example selection_26 : selection (bs "<div></div1>") 10 =
  Ok [(0, bs "<div></div1>")].
Proof. vm_compute. reflexivity. Qed.

Example selection_27 : selection (bs "<!-- foo -->") 6 =
  Ok [(6, bs "")].
Proof. vm_compute. reflexivity. Qed.

Example selection_28 : selection (bs "<!DOCTYPE html>") 11 =
  Ok [(11, bs "")].
Proof. vm_compute. reflexivity. Qed.
