(** * C77: a selection is formatted like a document of its own *)
From Verif Require Import Base Stream Scanner BaseFacts ScannerFacts ScanProps ScanLocal Tree Parser TextDoc PropDoc
  Formatter FormatFacts FormatWords Render PropRender PropFormat RepoTestsFormat Layout LayoutTree LayoutSettle PropLayout.
From Coq Require Import ZifyBool ZifyNat ZifyN.

(** ** Starts of lines *)
Lemma off_line l cs : forall p acc, exists pre post, cs = pre ++ post /\
  off_walk cs (mkPos l 0) p acc = acc + length (encode pre) /\
  (pre = [] -> post = [] \/ pos_ltb p (mkPos l 0) = false) /\
  (pre = [] \/ post = [] \/ exists pre0 c, pre = pre0 ++ [c] /\ (c = 10 \/ c = 13)%N).
Proof.
  induction cs as [|c r IH]; intros p acc; cbn [off_walk].
  - exists [], []. cbn [encode flat_map length]. auto.
  - destruct (pos_ltb p (mkPos l 0)) eqn:L.
    + destruct (IH (next_pos p c r) (acc + length (encode1 c))) as (pre & post & -> & E & S1 & S2).
      exists (c :: pre), post. split; [auto|]. split; [|split].
      * rewrite E. change (c :: pre) with ([c] ++ pre). rewrite encode_app, app_length. cbn [encode flat_map].
        rewrite app_nil_r. lia.
      * discriminate.
      * right. destruct S2 as [->|[->|(q & x & -> & X)]]; auto.
        -- destruct (S1 eq_refl) as [->|N]; auto. right. exists [], c. split; auto.
           unfold next_pos in N. destruct (ends_line c ([] ++ post)) eqn:EL.
           ++ unfold ends_line in EL. destruct (N.eqb c 10) eqn:C1; [left; lia|]. destruct (N.eqb c 13) eqn:C2; [right; lia|discriminate].
           ++ exfalso. unfold pos_ltb in *. cbn [line character] in *. lia.
        -- right. exists (c :: q), x. auto.
    + exists [], (c :: r). cbn [encode flat_map length app]. auto.
Qed.
(** The start of a line is the start or the end of the text, or behind a line feed or a carriage return. *)
Lemma line_start t l : Utf8 t -> let i := offset_at (utf16_doc t) (mkPos l 0) in
  (0 < l -> t <> [] -> 0 < i) /\
  (i = 0 \/ i = length t \/ exists c, nth_error t (i - 1) = Some c /\ (c = 10 \/ c = 13)%N).
Proof.
  intros HU i. destruct (utf8_decode t HU) as [_ E].
  destruct (off_line l (decode t) (mkPos 0 0) 0) as (pre & post & D & O & S1 & S2).
  assert (T : t = encode pre ++ encode post) by (rewrite <- encode_app, <- D; auto).
  assert (I : i = length (encode pre)) by exact O. split.
  - intros L N. destruct pre as [|c pre].
    + exfalso. destruct (S1 eq_refl) as [->|X]; [apply N; exact T|]. unfold pos_ltb in X. cbn [line character] in X. lia.
    + rewrite I. change (c :: pre) with ([c] ++ pre). rewrite encode_app, app_length. cbn [encode flat_map]. rewrite app_nil_r.
      pose proof (encode1_len c). lia.
  - destruct S2 as [->|[->|(q & c & -> & C)]]; [left; exact I|right; left|right; right].
    + rewrite I, T, app_length. cbn. lia.
    + exists c. split; auto. rewrite I, T, encode_app, app_length. cbn [encode flat_map].
      replace (encode1 c) with [c] by (destruct C as [->| ->]; reflexivity). cbn [app length].
      rewrite <- app_assoc, nth_error_app2 by (unfold encode; lia). unfold encode.
      replace (_ - _) with 0 by lia. reflexivity.
Qed.
(** So the level of the indentation is 0 wherever the selection is. *)
Lemma level_0 t l o lv : Utf8 t -> compute_indent_level t (offset_at (utf16_doc t) (mkPos l 0)) o = Ok lv -> lv = 0.
Proof.
  intros HU H. destruct (line_start t l HU) as [_ S]. set (i := offset_at (utf16_doc t) (mkPos l 0)) in *.
  unfold compute_indent_level in H. apply bind_ok in H as (j & J & H). unfold usub in J. destruct (1 <=? i) eqn:L; [|discriminate].
  apply Ok_inj in J. subst j. apply bind_ok in H as (n & N & H).
  assert (n = 0).
  { destruct S as [S|[S|(c & C & V)]]; [lia| |].
    - rewrite S, Nat.sub_diag in N. cbn [count_indent] in N. apply Ok_inj in N. auto.
    - destruct (length t - i); cbn [count_indent] in N; [apply Ok_inj in N; auto|].
      destruct (skipn (i - 1) t) as [|x r] eqn:E; [discriminate|].
      assert (nth_error t (i - 1) = Some x). { rewrite <- (firstn_skipn (i - 1) t), E. rewrite nth_error_app2; rewrite firstn_length; [|lia].
        replace (_ - _) with 0; [reflexivity|]. assert (i - 1 < length t) by (apply nth_error_Some; congruence). lia. }
      assert (x = c) by congruence. subst x. destruct V as [->| ->]; apply Ok_inj in N; auto. }
  subst n. destruct (tab_size o =? 0) eqn:Z; [discriminate|]. apply Ok_inj in H. subst lv. apply Nat.div_0_l. lia.
Qed.

(** ** C77 *)
(** What is written for a selection that does not start inside a tag does not depend on what is around it: it is
    the text that formatting the selected text, extended over blanks, gives as a document of its own. *)
Theorem C77_alone : forall U t r o cs es a b, Utf8 t ->
  format U (utf16_doc t) (Some r) o cs = Ok es ->
  start_from t (offset_at (utf16_doc t) (r_start r)) a -> end_from t (offset_at (utf16_doc t) (r_end r)) b ->
  ~ in_open_tag (sub t 0 a) ->
  exists x, es = [mkEdit (mkRange (edit_start (utf16_doc t) a) (position_at (utf16_doc t) b)) x] /\
    format U (utf16_doc (sub t a b)) None o cs =
      Ok [mkEdit (mkRange (mkPos 0 0) (position_at (utf16_doc (sub t a b)) (length (sub t a b)))) x].
Proof.
  intros U t r o cs es a b HU H A B N. assert (HD := C27_contract t HU).
  destruct (range_unfold U (utf16_doc t) r o cs HD) as (a' & b' & A' & B' & Ba & Bb & E). cbv zeta in E.
  assert (a' = a) by (eapply start_from_det; eauto). assert (b' = b) by (eapply end_from_det; eauto). subst a' b'. clear A' B'.
  rewrite E in H. clear E. apply bind_ok in H as (k & _ & H). apply bind_ok in H as (v & V & H). apply slice_bd_le in V as [V ->].
  change (d_text (utf16_doc t)) with t in *.
  destruct (inside_tag (sub t 0 a)) eqn:I; [exfalso; apply N; apply inside_tag_spec; auto|].
  apply bind_ok in H as (lv & L & H). apply level_0 in L; auto. subst lv. unfold format_value in H. apply bind_ok in H as (x & X & H).
  cbn [reindent Nat.ltb Nat.leb] in H. apply Ok_inj in H. subst es. exists x. split; [reflexivity|].
  unfold format, format_value. cbn [d_text utf16_doc]. rewrite X. reflexivity.
Qed.
Print Assumptions C77_alone.
(** It gets an answer exactly when that document does, if the tab size is positive and the selection does not start
    at the start of the text nor on its first line. *)
Theorem C77_answers : forall U t r o cs a b, Utf8 t ->
  start_from t (offset_at (utf16_doc t) (r_start r)) a -> end_from t (offset_at (utf16_doc t) (r_end r)) b ->
  0 < a <= b -> ~ in_open_tag (sub t 0 a) -> 0 < line (edit_start (utf16_doc t) a) -> 0 < tab_size o ->
  ((exists es, format U (utf16_doc t) (Some r) o cs = Ok es) <-> exists es, format U (utf16_doc (sub t a b)) None o cs = Ok es).
Proof.
  intros U t r o cs a b HU A B [P LE] N LN T0. split.
  - intros (es & H). destruct (C77_alone _ _ _ _ _ _ _ _ HU H A B N) as (x & _ & X). eauto.
  - intros (es & H). assert (HD := C27_contract t HU).
    destruct (range_unfold U (utf16_doc t) r o cs HD) as (a' & b' & A' & B' & Ba & Bb & E). cbv zeta in E.
    assert (a' = a) by (eapply start_from_det; eauto). assert (b' = b) by (eapply end_from_det; eauto). subst a' b'. clear A' B'.
    unfold format in H. pose proof H as H0. unfold format_value in H0. apply bind_ok in H0 as (x & X & _). cbn [d_text utf16_doc] in X.
    assert (UV : Utf8 (sub t a b)) by (apply Bd_sub; auto).
    assert (PR := X). unfold html_beautify in PR. apply bind_ok in PR as (roots & PR & _).
    assert (TB := trim_left_body (sub t a b) UV).
    assert (NN : all_named roots).
    { assert (Uv : Utf8 (trim_left (sub t a b))) by (destruct TB as (w & _ & _ & TB & _); auto).
      destruct (html_beautify_spec U (trim_left (sub t a b)) o cs roots Uv PR) as [(NN & _)|(_ & Q)]; [auto|congruence]. }
    destruct (line_start t (line (edit_start (utf16_doc t) a)) HU) as [LS _].
    destruct (C55_range U (utf16_doc t) r o cs a b (trim_left (sub t a b)) roots HD A B P LE N) as (e & Q); eauto.
    apply LS; auto. intros ->. apply Bd_le in Ba. cbn in Ba. lia.
Qed.
Print Assumptions C77_answers.
(** A selection of well-formed elements: the elements, attributes and words stay. *)
Corollary C77_well_formed : forall U t r o cs a b l, Utf8 t ->
  start_from t (offset_at (utf16_doc t) (r_start r)) a -> end_from t (offset_at (utf16_doc t) (r_end r)) b ->
  0 < a <= b -> ~ in_open_tag (sub t 0 a) -> 0 < line (edit_start (utf16_doc t) a) -> 0 < tab_size o ->
  sub t a b = render_all l -> good_doc U cs html5_void l ->
  exists l', format U (utf16_doc t) (Some r) o cs =
      Ok [mkEdit (mkRange (edit_start (utf16_doc t) a) (position_at (utf16_doc t) b)) (render_all l')] /\
    good_doc U cs html5_void l' /\ outlines l' = outlines (filter is_element l).
Proof.
  intros U t r o cs a b l HU A B P N LN T0 E G.
  destruct (C63_same_outline U (utf16_doc (sub t a b)) o cs l G E) as (l' & F & G' & O).
  destruct (proj2 (C77_answers U t r o cs a b HU A B P N LN T0) (ex_intro _ _ F)) as (es & H).
  destruct (C77_alone _ _ _ _ _ _ _ _ HU H A B N) as (x & -> & X). rewrite X in F. apply Ok_inj in F.
  injection F as ->. exists l'. auto.
Qed.
Print Assumptions C77_well_formed.

(** ** The selection of [range_from] (PropFormat), and a selection in an indented block, which loses its indentation *)
Example C77_case : Utf8 fdoc /\ 0 < line (edit_start fdocx 14) /\ 0 < tab_size two /\
  sub fdoc 14 36 = bs "<p  class=x >y  z</p >" /\ format_doc two (sub fdoc 14 36) = Ok (bs "<p class=x>y z</p>").
Proof.
  split; [apply ascii_utf8; vm_compute; reflexivity|]. vm_compute. repeat split; auto; lia.
Qed.
Theorem C77_indent_refuted :
  let d := utf16_doc (text ["<div>"; "    <p><b>x</b><i>y</i></p>"; "</div>"]%string) in
  format demo_unicode d (Some (range_at d 6 33)) two false =
  Ok [mkEdit (mkRange (mkPos 2 0) (mkPos 1 27)) (text ["<p>"; "  <b>x</b>"; "  <i>y</i></p>"]%string)].
Proof. vm_compute. reflexivity. Qed.
