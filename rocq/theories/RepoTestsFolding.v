(** Tests of /repo/tests/folding.rs transcribed (generated by tools/gen_folding_tests.py).
    They validate the model's fidelity; they are tests, not proofs. As there, the
    result is sorted by start line. *)
From Verif Require Import Base Stream Scanner Tree Parser TextDoc Folding.

Definition NL : str := [10%N].
Fixpoint lines (l : list str) : str :=
  match l with [] => [] | [x] => x | x :: r => x ++ NL ++ lines r end.
Fixpoint by_start_insert (x : frange) (l : list frange) :=
  match l with [] => [x] | y :: r => if f_start x <=? f_start y then x :: l else y :: by_start_insert x r end.
Definition folding (l : list str) (limit : option nat) : res (list frange) :=
  do r <- get_folding_ranges demo_unicode (utf16_doc (lines l)) limit html5_void false;
  Ok (fold_right by_start_insert [] r).

Example folding_0 : folding [bs "<html>"; bs "Hello"; bs "</html>"] (None) =
  Ok [mkF 0 1 None].
Proof. vm_compute. reflexivity. Qed.

Example folding_1 : folding [bs "<html>"; bs "<head>"; bs "Hello"; bs "</head>"; bs "</html>"] (None) =
  Ok [mkF 0 3 None; mkF 1 2 None].
Proof. vm_compute. reflexivity. Qed.

Example folding_2 : folding [bs "<html>"; bs "<head>"; bs "Head"; bs "</head>"; bs "<body class=""f"">"; bs "Body"; bs "</body>"; bs "</html>"] (None) =
  Ok [mkF 0 6 None; mkF 1 2 None; mkF 4 5 None].
Proof. vm_compute. reflexivity. Qed.

Example folding_3 : folding [bs "<div>"; bs "<a href=""top""/>"; bs "<img src=""s"">"; bs "<br/>"; bs "<br>"; bs "<img class=""c"""; bs "     src=""top"""; bs ">"; bs "</div>"] (None) =
  Ok [mkF 0 7 None; mkF 5 6 None].
Proof. vm_compute. reflexivity. Qed.

Example folding_4 : folding [bs "<!--"; bs " multi line"; bs "-->"; bs "<!-- some stuff"; bs " some more stuff -->"] (None) =
  Ok [mkF 0 2 (Some KComment); mkF 3 4 (Some KComment)].
Proof. vm_compute. reflexivity. Qed.

Example folding_5 : folding [bs "<!-- #region -->"; bs "<!-- #region -->"; bs "<!-- #endregion -->"; bs "<!-- #endregion -->"] (None) =
  Ok [mkF 0 3 (Some KRegion); mkF 1 2 (Some KRegion)].
Proof. vm_compute. reflexivity. Qed.

Example folding_6 : folding [bs "<body>"; bs "<div></div>"; bs "Hello"; bs "</div>"; bs "</body>"] (None) =
  Ok [mkF 0 3 None].
Proof. vm_compute. reflexivity. Qed.

Example folding_7 : folding [bs "<be><div>"; bs "<!-- #endregion -->"; bs "</div>"] (None) =
  Ok [mkF 0 1 None].
Proof. vm_compute. reflexivity. Qed.

Example folding_8 : folding [bs "<body>"; bs "<!-- #region -->"; bs "Hello"; bs "<div></div>"; bs "</body>"; bs "<!-- #endregion -->"] (None) =
  Ok [mkF 0 3 None].
Proof. vm_compute. reflexivity. Qed.

Example folding_9 : folding [bs "<!-- #region -->"; bs "<body>"; bs "Hello"; bs "<!-- #endregion -->"; bs "<div></div>"; bs "</body>"] (None) =
  Ok [mkF 0 3 (Some KRegion)].
Proof. vm_compute. reflexivity. Qed.

Example folding_10 : folding [bs "<div>"; bs " <span>"; bs "  <b>"; bs "  "; bs "  </b>,"; bs "  <b>"; bs "   <pre>"; bs "  "; bs "   </pre>,"; bs "   <pre>"; bs "  "; bs "   </pre>,"; bs "  </b>,"; bs "  <b>"; bs "  "; bs "  </b>,"; bs "  <b>"; bs "  "; bs "  </b>"; bs " </span>"; bs "</div>"] (None) =
  Ok [mkF 0 19 None; mkF 1 18 None; mkF 2 3 None; mkF 5 11 None; mkF 6 7 None; mkF 9 10 None; mkF 13 14 None; mkF 16 17 None].
Proof. vm_compute. reflexivity. Qed.

Example folding_11 : folding [bs "<div>"; bs " <span>"; bs "  <b>"; bs "  "; bs "  </b>,"; bs "  <b>"; bs "   <pre>"; bs "  "; bs "   </pre>,"; bs "   <pre>"; bs "  "; bs "   </pre>,"; bs "  </b>,"; bs "  <b>"; bs "  "; bs "  </b>,"; bs "  <b>"; bs "  "; bs "  </b>"; bs " </span>"; bs "</div>"] (Some 8) =
  Ok [mkF 0 19 None; mkF 1 18 None; mkF 2 3 None; mkF 5 11 None; mkF 6 7 None; mkF 9 10 None; mkF 13 14 None; mkF 16 17 None].
Proof. vm_compute. reflexivity. Qed.

Example folding_12 : folding [bs "<div>"; bs " <span>"; bs "  <b>"; bs "  "; bs "  </b>,"; bs "  <b>"; bs "   <pre>"; bs "  "; bs "   </pre>,"; bs "   <pre>"; bs "  "; bs "   </pre>,"; bs "  </b>,"; bs "  <b>"; bs "  "; bs "  </b>,"; bs "  <b>"; bs "  "; bs "  </b>"; bs " </span>"; bs "</div>"] (Some 7) =
  Ok [mkF 0 19 None; mkF 1 18 None; mkF 2 3 None; mkF 5 11 None; mkF 6 7 None; mkF 13 14 None; mkF 16 17 None].
Proof. vm_compute. reflexivity. Qed.

Example folding_13 : folding [bs "<div>"; bs " <span>"; bs "  <b>"; bs "  "; bs "  </b>,"; bs "  <b>"; bs "   <pre>"; bs "  "; bs "   </pre>,"; bs "   <pre>"; bs "  "; bs "   </pre>,"; bs "  </b>,"; bs "  <b>"; bs "  "; bs "  </b>,"; bs "  <b>"; bs "  "; bs "  </b>"; bs " </span>"; bs "</div>"] (Some 6) =
  Ok [mkF 0 19 None; mkF 1 18 None; mkF 2 3 None; mkF 5 11 None; mkF 13 14 None; mkF 16 17 None].
Proof. vm_compute. reflexivity. Qed.

Example folding_14 : folding [bs "<div>"; bs " <span>"; bs "  <b>"; bs "  "; bs "  </b>,"; bs "  <b>"; bs "   <pre>"; bs "  "; bs "   </pre>,"; bs "   <pre>"; bs "  "; bs "   </pre>,"; bs "  </b>,"; bs "  <b>"; bs "  "; bs "  </b>,"; bs "  <b>"; bs "  "; bs "  </b>"; bs " </span>"; bs "</div>"] (Some 5) =
  Ok [mkF 0 19 None; mkF 1 18 None; mkF 2 3 None; mkF 5 11 None; mkF 13 14 None].
Proof. vm_compute. reflexivity. Qed.

Example folding_15 : folding [bs "<div>"; bs " <span>"; bs "  <b>"; bs "  "; bs "  </b>,"; bs "  <b>"; bs "   <pre>"; bs "  "; bs "   </pre>,"; bs "   <pre>"; bs "  "; bs "   </pre>,"; bs "  </b>,"; bs "  <b>"; bs "  "; bs "  </b>,"; bs "  <b>"; bs "  "; bs "  </b>"; bs " </span>"; bs "</div>"] (Some 4) =
  Ok [mkF 0 19 None; mkF 1 18 None; mkF 2 3 None; mkF 5 11 None].
Proof. vm_compute. reflexivity. Qed.

Example folding_16 : folding [bs "<div>"; bs " <span>"; bs "  <b>"; bs "  "; bs "  </b>,"; bs "  <b>"; bs "   <pre>"; bs "  "; bs "   </pre>,"; bs "   <pre>"; bs "  "; bs "   </pre>,"; bs "  </b>,"; bs "  <b>"; bs "  "; bs "  </b>,"; bs "  <b>"; bs "  "; bs "  </b>"; bs " </span>"; bs "</div>"] (Some 3) =
  Ok [mkF 0 19 None; mkF 1 18 None; mkF 2 3 None].
Proof. vm_compute. reflexivity. Qed.

Example folding_17 : folding [bs "<div>"; bs " <span>"; bs "  <b>"; bs "  "; bs "  </b>,"; bs "  <b>"; bs "   <pre>"; bs "  "; bs "   </pre>,"; bs "   <pre>"; bs "  "; bs "   </pre>,"; bs "  </b>,"; bs "  <b>"; bs "  "; bs "  </b>,"; bs "  <b>"; bs "  "; bs "  </b>"; bs " </span>"; bs "</div>"] (Some 2) =
  Ok [mkF 0 19 None; mkF 1 18 None].
Proof. vm_compute. reflexivity. Qed.

Example folding_18 : folding [bs "<div>"; bs " <span>"; bs "  <b>"; bs "  "; bs "  </b>,"; bs "  <b>"; bs "   <pre>"; bs "  "; bs "   </pre>,"; bs "   <pre>"; bs "  "; bs "   </pre>,"; bs "  </b>,"; bs "  <b>"; bs "  "; bs "  </b>,"; bs "  <b>"; bs "  "; bs "  </b>"; bs " </span>"; bs "</div>"] (Some 1) =
  Ok [mkF 0 19 None].
Proof. vm_compute. reflexivity. Qed.
