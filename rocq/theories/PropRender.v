(** * C21: well-formed documents parse to their tree *)
From Verif Require Import Base BaseFacts Stream Scanner ScannerFacts ScanStep ScanComplete ScanPanic
  Tree Parser ParseSpec ParseInv ParseOrder PropParse Render RenderFacts.
From Coq Require Import ZifyBool ZifyNat ZifyN.

Section Items.
Variable U : unicode.
Variable t : str.
Variable cs : bool.
Variable void : list str.
Hypothesis HU : Utf8 t.
Notation norm := (norm U cs).
Notation same := (same U cs).
Notation outcome := (outcome U t true cs).
Notation at_ := (at_ t).
Notation run := (run U t cs void).
Notation item_runs := (item_runs U t cs void).

Lemma text_item s : item_runs (HText s).
Proof.
  intros sc p r G S A E. inversion G as [x (NE & _ & NL)| | | | | | |]; subst. cbn [render] in *.
  assert (L := at_len _ _ _ A). rewrite app_length in L.
  assert (LS : 0 < length s) by (destruct s; [tauto|cbn; lia]).
  exists (finish sc (pos sc) Content None (pos sc + length s) WithinContent), p.
  split; [|cbn [nodes_from]; rewrite plus_nil; cbn; repeat split; auto; discriminate].
  apply one; [exact HU|..]; cbn [tok finish pos]; try discriminate; try lia.
  - apply O_content; auto; [lia| |].
    + destruct s as [|b s]; [tauto|]. rewrite (at_first t _ b (s ++ r)) by (exact A).
      intros Q. inversion Q. apply NL. cbn; auto.
    + repeat split; try lia.
      * intros i I1 I2 Q. apply NL. replace i with (pos sc + (i - pos sc)) in Q by lia.
        rewrite (at_nth _ _ _ _ A), nth_error_app1 in Q by lia. eapply nth_error_In; eauto.
      * destruct E as [-> |[s' ->]]; [eauto|cbn in L; lia|].
        right. rewrite (at_nth _ _ _ _ A), nth_error_app2, Nat.sub_diag by lia. auto.
  - apply A.
  - reflexivity.
Qed.

Lemma comment_item s : item_runs (HComment s).
Proof.
  intros sc p r G S A _. inversion G as [|x Us NO| | | | | |]; subst. cbn [render] in *. rewrite <- !app_assoc in A.
  assert (L := at_len _ _ _ A). rewrite !app_length in *. cbn [length bs] in L.
  assert (A1 := A). apply at_adv in A1; auto; [|apply ascii_utf8; reflexivity].
  set (s1 := finish sc (pos sc) StartCommentTag None (pos sc + 4) WithinComment).
  assert (R1 : run sc p s1 p).
  { apply one; [exact HU|..]; cbn [tok finish pos s1]; try discriminate; try lia.
    - apply O_start_comment; [left; auto|]. eapply at_prefix. exact A.
    - apply A.
    - reflexivity. }
  change (pos sc + length (bs "<!--")) with (pos s1) in A1.
  assert (EX : exists s2, run s1 p s2 p /\ pos s2 = pos s1 + length s /\ st s2 = WithinComment).
  { destruct s as [|b s'] eqn:Es; [exists s1; split; [apply run_nil|cbn; auto]|]. rewrite <- Es in *.
    assert (LS : 0 < length s) by (rewrite Es; cbn; lia).
    exists (finish s1 (pos s1) Comment None (pos s1 + length s) WithinComment). split; [|cbn; auto].
    assert (NP : forall i, i < length s -> is_prefix (bs "-->") (skipn (pos s1 + i) t) = false).
    { intros i I. rewrite (at_skip _ _ _ i A1). apply no_straddle_comment; auto. }
    assert (PR : is_prefix (bs "-->") (skipn (pos s1 + length s) t) = true).
    { rewrite (at_skip _ _ _ _ A1), skipn_app, skipn_all, Nat.sub_diag. apply is_prefix_spec. eexists. reflexivity. }
    apply one; [exact HU|..]; cbn [tok finish pos]; try discriminate; try lia.
    - apply O_comment; auto.
      + cbn [pos s1 finish]. lia.
      + rewrite <- (Nat.add_0_r (pos s1)). apply NP. lia.
      + split; [lia|]. split; [cbn [pos s1 finish]; lia|]. split; [|auto].
        intros i I1 I2. replace i with (pos s1 + (i - pos s1)) by lia. apply NP. lia.
    - apply A1.
    - reflexivity. }
  destruct EX as (s2 & R2 & P2 & S2). apply at_adv in A1; auto. rewrite <- P2 in A1.
  exists (finish s2 (pos s2) EndCommentTag None (pos s2 + 3) WithinContent), p.
  split.
  - eapply run_trans; eauto. eapply run_trans; eauto. apply one; [exact HU|..]; cbn [tok finish pos]; try discriminate; try lia.
    + apply O_end_comment; auto. eapply at_prefix; eauto.
    + apply A1.
    + reflexivity.
  - cbn [nodes_from]. rewrite plus_nil. split; auto. split; [|repeat split; discriminate]. cbn [pos finish]. rewrite P2.
    cbn [pos s1 finish length bs]. lia.
Qed.

Lemma doctype_item w s : item_runs (HDoctype w s).
Proof.
  intros sc p r G S A _. inversion G as [| |x y W Us NO| | | | |]; subst. cbn [render] in *. rewrite <- !app_assoc in A.
  assert (LW : length w = 7) by (rewrite <- (map_length ascii_lower), W; auto).
  assert (L := at_len _ _ _ A). rewrite !app_length in *. cbn [length bs] in L.
  assert (A0 := A). apply (at_adv t HU _ (bs "<") ([33%N] ++ w ++ s ++ bs ">" ++ r)) in A0; [|apply u_one; reflexivity].
  assert (A1 := A). apply at_adv in A1; auto; [|apply ascii_utf8; reflexivity].
  apply at_adv in A1; auto; [|apply word_utf8; auto].
  set (s1 := finish sc (pos sc) StartDoctypeTag None (pos sc + 9) WithinDoctype).
  assert (R1 : run sc p s1 p).
  { apply one; [exact HU|..]; cbn [tok finish pos s1]; try discriminate; try lia.
    - apply O_start_doctype; [left; auto|eapply at_first; exact A|apply Bd_boundary, A0|].
      destruct A0 as [A0 _]. change (length (bs "<")) with 1 in A0. rewrite A0. cbn [app m_doctype].
      rewrite firstn_app. replace (7 - length w) with 0 by lia. rewrite firstn_O, app_nil_r, (firstn_all2 w), W by lia. reflexivity.
    - apply A.
    - reflexivity. }
  replace (pos sc + length (bs "<!") + length w) with (pos s1) in A1 by (cbn [pos s1 finish length bs]; lia).
  assert (EX : exists s2, run s1 p s2 p /\ pos s2 = pos s1 + length s /\ st s2 = WithinDoctype).
  { destruct s as [|b s'] eqn:Es; [exists s1; split; [apply run_nil|cbn; auto]|]. rewrite <- Es in *.
    assert (LS : 0 < length s) by (rewrite Es; cbn; lia).
    exists (finish s1 (pos s1) Doctype None (pos s1 + length s) WithinDoctype). split; [|cbn; auto].
    assert (NP : forall i, i < length s -> nth_error t (pos s1 + i) <> Some GT).
    { intros i I. rewrite (at_nth _ _ _ i A1), nth_error_app1 by lia. intros Q. apply NO. eapply nth_error_In; eauto. }
    apply one; [exact HU|..]; cbn [tok finish pos]; try discriminate; try lia.
    - apply O_doctype; auto.
      + cbn [pos s1 finish]. lia.
      + rewrite <- (Nat.add_0_r (pos s1)). apply NP. lia.
      + split; [lia|]. split; [cbn [pos s1 finish]; lia|]. split.
        * intros i I1 I2. replace i with (pos s1 + (i - pos s1)) by lia. apply NP. lia.
        * right. rewrite (at_nth _ _ _ _ A1), nth_error_app2, Nat.sub_diag by lia. reflexivity.
    - apply A1.
    - reflexivity. }
  destruct EX as (s2 & R2 & P2 & S2). apply at_adv in A1; auto. rewrite <- P2 in A1.
  exists (finish s2 (pos s2) EndDoctypeTag None (pos s2 + 1) WithinContent), p.
  split.
  - eapply run_trans; eauto. eapply run_trans; eauto. apply one; [exact HU|..]; cbn [tok finish pos]; try discriminate; try lia.
    + apply O_end_doctype; auto. eapply at_first. exact A1.
    + apply A1.
    + reflexivity.
  - cbn [nodes_from]. rewrite plus_nil. split; auto. split; [|repeat split; discriminate]. cbn [pos finish]. rewrite P2.
    cbn [pos s1 finish length bs]. lia.
Qed.

Lemma element_item name attrs pad body close pad2 : Forall item_runs body ->
  item_runs (HElement name attrs pad body close pad2).
Proof.
  intros HB sc p r G S A _. inversion G as [| | |? ? ? ? ? ? G1 G2 G3 G4 G5 G6 G7 G8 G9 G10| | | |]; subst. cbn [render] in *.
  change (flat_map render body) with (render_all body) in *. rewrite <- !app_assoc in A.
  destruct (open_run U t cs void HU sc p name attrs pad _ (or_introl S) A G1 G4 G5 G3)
    as (s1 & p1 & R1 & P1 & S1 & _ & _ & C1 & Q1). specialize (S1 G2).
  apply at_adv in A; auto; [|apply start_utf8 with (U := U); auto; apply u_one; reflexivity]. rewrite <- P1 in A.
  destruct (list_from_items U t cs void HU body HB s1 p1 (end_tag close pad2 ++ r) G6 G7 S1 A)
    as (s2 & p2 & R2 & S2 & P2 & C2 & Q2 & _).
  { right. eexists. reflexivity. }
  apply at_adv in A; auto.
  2:{ clear - G6 HU. induction G6; [apply u_nil|]. cbn [render_all flat_map]. apply u_app; auto.
      eapply render_utf8; eauto. }
  rewrite <- P2 in A.
  destruct (end_run U t cs void HU s2 p2 name close pad2 r (cur p) (parents p) (or_introl S2) A G8 G10 G9)
    as (s3 & p3 & R3 & S3 & P3 & C3 & Q3 & K3).
  { rewrite C2, C1. reflexivity. }
  { congruence. }
  exists s3, p3. split; [eapply run_trans; eauto; eapply run_trans; eauto|]. split; auto.
  split; [rewrite !app_length; lia|]. split; [|split; [auto|split; rewrite K3; discriminate]]. rewrite C3. unfold add_child, plus. f_equal. f_equal.
  cbn [nodes_from]. f_equal. rewrite C2, C1, <- P1, <- P2, <- P3. reflexivity.
Qed.

(** The end of an element whose content is not parsed. *)
Lemma raw_end sc0 p name attrs pad s pad2 r sc p1 : good_name U name -> blank pad2 ->
  pos sc = pos sc0 + length (start_tag name attrs pad (bs ">")) + length s ->
  content_like t sc -> at_ (pos sc) (end_tag name pad2 ++ r) ->
  cur p1 = mkNode (Some name) (pos sc0) (pos sc - length s) [] false (Some (pos sc - length s)) None
               (attrs_from (pos sc0 + 1 + length name) attrs) ->
  parents p1 = cur p :: parents p ->
  exists sc1 p2, run sc p1 sc1 p2 /\ st sc1 = WithinContent /\
    pos sc1 = pos sc0 + length (render (HRaw name attrs pad s pad2)) /\
    cur p2 = plus (cur p) (nodes_from (pos sc0) (HRaw name attrs pad s pad2)) /\ parents p2 = parents p /\ calm sc1.
Proof.
  intros G1 G2 P CL A C Q.
  destruct (end_run U t cs void HU sc p1 name name pad2 r (cur p) (parents p) CL A G1 G2)
    as (s3 & p3 & R3 & S3 & P3 & C3 & Q3 & K3); auto.
  { unfold Render.same. destruct cs; auto. }
  { rewrite C. reflexivity. }
  exists s3, p3. split; auto. split; auto. split; [cbn [render]; rewrite !app_length; lia|]. split; [|split; [auto|split; rewrite K3; discriminate]].
  rewrite C3. unfold add_child, plus. f_equal. f_equal. cbn [nodes_from]. f_equal. rewrite C.
  unfold set_end, set_ets, set_closed. cbn [n_tag n_start n_end n_children n_ste n_attrs].
  rewrite P3, P. f_equal; try (f_equal; lia).
Qed.

Lemma lt_free m : (forall j, 0 < j -> j < length m -> nth_error m j <> Some 60%N) ->
  forall j, 0 < j -> nth_error m j <> Some 60%N.
Proof.
  intros H j J. destruct (Nat.lt_ge_cases j (length m)); auto. rewrite (proj2 (nth_error_None _ _)); [discriminate|auto].
Qed.

Lemma script_item attrs pad s pad2 : item_runs (HRaw (bs "script") attrs pad s pad2) .
Proof.
  intros sc p r G S A _. cbn [render] in A. rewrite <- !app_assoc in A.
  inversion G as [| | | |? ? ? ? G1 G2 G3 G4 G5 G6 G7 G8 G9 G10 | | |]; subst.
  destruct (open_run U t cs void HU sc p _ attrs pad _ (or_introl S) A (script_name U) G2 G3 G1)
    as (s1 & p1 & R1 & P1 & _ & S1 & _ & C1 & Q1).
  assert (NS : norm (bs "script") = bs "script") by (unfold ScannerFacts.norm; destruct cs; reflexivity).
  specialize (S1 NS G4).
  apply at_adv in A; auto; [|apply start_utf8 with (U := U); auto; [apply script_name|apply u_one; reflexivity]].
  rewrite <- P1 in A.
  assert (PE : is_prefix (bs "</script") (skipn (pos s1 + length s) t) = true).
  { rewrite (at_skip _ _ _ _ A), skipn_app, skipn_all, Nat.sub_diag. apply is_prefix_spec.
    exists (pad2 ++ bs ">" ++ r). unfold end_tag. rewrite <- !app_assoc. reflexivity. }
  assert (SR : script_run t 1 (pos s1) (pos s1 + length s)).
  { apply script_run_skip with (p' := pos s1 + length s); [lia| |apply SR_close; [discriminate|auto]].
    intros i I1 I2. replace i with (pos s1 + (i - pos s1)) by lia.
    pose proof (at_len _ _ _ A) as L. rewrite app_length in L.
    split; [lia|]. rewrite !(at_skip _ _ _ _ A).
    assert (NM : forall m, ~ occurs m s -> (forall j, 0 < j -> j < length m -> nth_error m j <> Some 60%N) ->
       is_prefix m (skipn (i - pos s1) (s ++ end_tag (bs "script") pad2 ++ r)) = false).
    { intros m N M. unfold end_tag. rewrite <- !app_assoc. apply (no_straddle m s (bs "/script" ++ pad2 ++ bs ">" ++ r)); auto; [|lia].
      apply lt_free; auto. }
    assert (J : forall j n, j < n -> forall P : nat -> Prop, (forall k, k < n -> P k) -> P j) by auto.
    repeat split; apply NM; auto; intros j J1 J2; cbn [length bs] in J2;
      do 9 (destruct j as [|j]; [first [lia|discriminate]|]); lia. }
  assert (EX : exists s2, run s1 p1 s2 p1 /\ pos s2 = pos s1 + length s /\ content_like t s2).
  { destruct s as [|b s'] eqn:Es.
    - exists s1. split; [apply run_nil|]. split; [cbn; lia|]. right. left. split; auto.
      cbn [length] in SR. rewrite Nat.add_0_r in SR. auto.
    - rewrite <- Es in *. assert (LS : 0 < length s) by (rewrite Es; cbn; lia).
      exists (finish s1 (pos s1) Script None (pos s1 + length s) WithinContent).
      split; [|cbn; split; auto; left; auto].
      pose proof (at_len _ _ _ A) as L. rewrite app_length in L.
      assert (LE : 0 < length (end_tag (bs "script") pad2 ++ r)) by (cbn; lia).
      eapply run_cons; [exact (proj2 A)| | | | |apply run_nil]; cbn [tok finish pos]; try discriminate; try lia; [|reflexivity].
      rewrite scan_internal by auto. unfold internal_scan. rewrite S1. unfold scan_script. rewrite eos_or_go by lia.
      destruct (script_loop_spec t HU (length t) 1 (pos s1) (proj2 A) ltac:(lia)) as (fin & q & E1 & E2 & E3).
      rewrite E1. cbn [bind]. assert (q = pos s1 + length s) by (eapply script_run_det; eauto). subst q.
      destruct fin; [specialize (E3 eq_refl); lia|]. replace (pos s1 <? pos s1 + length s) with true by lia. reflexivity. }
  destruct EX as (s2 & R2 & P2 & CL). apply at_adv in A; auto. rewrite <- P2 in A.
  destruct (raw_end sc p (bs "script") attrs pad s pad2 r s2 p1) as (s3 & p3 & R3 & H3); auto.
  - apply script_name.
  - lia.
  - rewrite C1. f_equal; try (f_equal; lia); try lia.
  - exists s3, p3. split; auto. eapply run_trans; eauto. eapply run_trans; eauto.
Qed.

Lemma style_item attrs pad s pad2 : item_runs (HRaw (bs "style") attrs pad s pad2) .
Proof.
  intros sc p r G S A _. cbn [render] in A. rewrite <- !app_assoc in A.
  inversion G as [| | | | |? ? ? ? G1 G2 G3 G5 G6 G10| |]; subst.
  destruct (open_run U t cs void HU sc p _ attrs pad _ (or_introl S) A (style_name U) G2 G3 G1)
    as (s1 & p1 & R1 & P1 & _ & _ & S1 & C1 & Q1).
  assert (NS : norm (bs "style") = bs "style") by (unfold ScannerFacts.norm; destruct cs; reflexivity).
  specialize (S1 NS).
  apply at_adv in A; auto; [|apply start_utf8 with (U := U); auto; [apply style_name|apply u_one; reflexivity]].
  rewrite <- P1 in A.
  assert (PE : is_prefix (bs "</style") (skipn (pos s1 + length s) t) = true).
  { rewrite (at_skip _ _ _ _ A), skipn_app, skipn_all, Nat.sub_diag. apply is_prefix_spec.
    exists (pad2 ++ bs ">" ++ r). unfold end_tag. rewrite <- !app_assoc. reflexivity. }
  pose proof (at_len _ _ _ A) as L. rewrite app_length in L.
  assert (FS : first_str t (pos s1) (bs "</style") (pos s1 + length s)).
  { split; [lia|]. split; [lia|]. split; [|auto].
    intros i I1 I2. replace i with (pos s1 + (i - pos s1)) by lia. rewrite !(at_skip _ _ _ _ A).
    unfold end_tag. rewrite <- !app_assoc. apply (no_straddle _ s (bs "/style" ++ pad2 ++ bs ">" ++ r)); auto; [|lia].
    apply lt_free. intros j J1 J2. cbn [length bs] in J2.
    do 8 (destruct j as [|j]; [first [lia|discriminate]|]); lia. }
  assert (EX : exists s2, run s1 p1 s2 p1 /\ pos s2 = pos s1 + length s /\ content_like t s2).
  { destruct s as [|b s'] eqn:Es.
    - exists s1. split; [apply run_nil|]. split; [cbn; lia|]. right. right. split; auto.
      cbn [length] in PE. rewrite Nat.add_0_r in PE. auto.
    - rewrite <- Es in *. assert (LS : 0 < length s) by (rewrite Es; cbn; lia).
      exists (finish s1 (pos s1) Styles None (pos s1 + length s) WithinContent).
      split; [|cbn; split; auto; left; auto].
      apply one; [exact HU|..]; cbn [tok finish pos]; try discriminate; try lia.
      + apply O_style; auto. lia.
      + apply A.
      + reflexivity. }
  destruct EX as (s2 & R2 & P2 & CL). apply at_adv in A; auto. rewrite <- P2 in A.
  destruct (raw_end sc p (bs "style") attrs pad s pad2 r s2 p1) as (s3 & p3 & R3 & H3); auto.
  - apply style_name.
  - lia.
  - rewrite C1. f_equal; try (f_equal; lia); try lia.
  - exists s3, p3. split; auto. eapply run_trans; eauto. eapply run_trans; eauto.
Qed.

Lemma void_item name attrs pad : item_runs (HVoid name attrs pad).
Proof.
  intros sc p r G S A _. cbn [render] in A. unfold start_tag in A. rewrite <- !app_assoc in A.
  inversion G as [| | | | | |? ? ? G1 G2 G3 G4 G5|]; subst.
  destruct (start_run U t cs void HU sc p name attrs pad 62%N r (or_introl S) A G1 G4 G5)
    as (s1 & p1 & R1 & I1 & A1 & P1 & T1 & Y1 & C1 & Q1); auto.
  { discriminate. }
  destruct (close_run U t cs void HU s1 p1 r _ _ I1 A1 Q1) as (s2 & O & K1 & K2 & K3 & K4 & K5).
  set (p2 := mkP (add_child (cur p) (set_closed true (set_ste (Some (pos s2)) (set_end (pos s2) (cur p1)))))
                 (parents p) (end_tag_start p1) (end_tag_name p1) (pending p1)).
  assert (PS : pstep U t cs void s2 p1 = Ok p2).
  { unfold pstep. rewrite K1, Q1, K2. replace (0 <? pos s2 - pos s1) with true by lia.
    cbn [upd_cur cur set_end set_ste n_tag]. rewrite C1. cbn [n_tag].
    assert (V : is_void_element name void = true).
    { unfold is_void_element. apply existsb_exists. exists name. split; auto. apply beq_refl. }
    rewrite V. unfold pop, upd_cur. cbn [parents]. rewrite Q1. unfold p2. rewrite C1. reflexivity. }
  exists s2, p2. split; [eapply run_trans; eauto|]. split; [rewrite K4; eapply after_plain; eauto|]. split.
  { cbn [render]. rewrite K3, P1. unfold start_tag. rewrite !app_length. cbn [length bs]. lia. }
  split; [|split; [reflexivity|split; rewrite K1; discriminate]]. unfold p2. cbn [cur]. rewrite C1. unfold add_child, plus. f_equal. f_equal. cbn [nodes_from].
  unfold set_closed, set_ste, set_end. cbn.
  assert (E : pos s2 = pos sc + length (start_tag name attrs pad (bs ">"))).
  { rewrite K3, P1. unfold start_tag. rewrite !app_length. cbn [length bs]. lia. }
  rewrite E. reflexivity.
Qed.

Lemma self_item name attrs pad : item_runs (HSelf name attrs pad).
Proof.
  intros sc p r G S A _. cbn [render] in A. unfold start_tag in A. rewrite <- !app_assoc in A.
  inversion G as [| | | | | | |? ? ? G1 G2 G3 G4]; subst.
  destruct (start_run U t cs void HU sc p name attrs pad 47%N (62%N :: r) (or_introl S) A G1 G2 G3)
    as (s1 & p1 & R1 & I1 & A1 & P1 & T1 & Y1 & C1 & Q1); auto.
  pose proof (at_len _ _ _ A1) as L. cbn [length] in L.
  set (s2 := finish (no_attr t (set_st WithinTag s1)) (pos s1) StartTagSelfClose None (pos s1 + 2) WithinContent).
  assert (O : outcome s1 s2).
  { eapply O_in_tag; [lia|apply (enter t s1 47%N (62%N :: r) I1 A1); [reflexivity|discriminate]|].
    apply (TO_self_close U t true cs (set_st WithinTag s1)). apply (at_prefix t _ (bs "/>") r A1). }
  set (p2 := mkP (add_child (cur p) (set_ste (Some (pos s2)) (set_end (pos s2) (set_closed true (cur p1)))))
                 (parents p) (end_tag_start p1) (end_tag_name p1) (pending p1)).
  assert (PS : pstep U t cs void s2 p1 = Ok p2).
  { unfold pstep. cbn [tok s2 finish]. rewrite Q1. unfold pop, upd_cur. cbn [parents]. rewrite Q1. reflexivity. }
  assert (E : pos s2 = pos sc + length (start_tag name attrs pad (bs "/>"))).
  { cbn [pos s2 finish]. rewrite P1. unfold start_tag. rewrite !app_length. cbn [length bs]. lia. }
  exists s2, p2. split.
  { eapply run_trans; eauto. apply one; [exact HU|..]; cbn [tok s2 finish pos]; try discriminate; try lia; [exact O|apply A1|exact PS]. }
  split; [reflexivity|]. split; [exact E|].
  split; [|split; [reflexivity|split; discriminate]]. unfold p2. cbn [cur]. rewrite C1. unfold add_child, plus. f_equal. f_equal. cbn [nodes_from].
  unfold set_closed, set_ste, set_end. cbn [n_tag n_start n_end n_children n_closed n_ste n_ets n_attrs]. rewrite E. reflexivity.
Qed.

Lemma item_ok h : good U cs void h -> item_runs h.
Proof.
  revert h. fix IH 1. intros h G. destruct h as [s|s|w s|name attrs pad body close pad2|name attrs pad s pad2|name attrs pad|name attrs pad].
  - apply text_item.
  - apply comment_item.
  - apply doctype_item.
  - apply element_item. assert (GB : Forall (good U cs void) body) by (inversion G; auto). clear G.
    revert body GB. fix IHl 1. intros body GB. destruct body as [|h l]; [constructor|].
    constructor; [apply IH; inversion GB; auto|apply IHl; inversion GB; auto].
  - inversion G; subst; [apply script_item|apply style_item].
  - apply void_item.
  - apply self_item.
Qed.
End Items.

(** ** C21 *)
(** Parsing the rendering of a well-formed document gives the tree the document
    denotes: the elements in their nesting with their names, attributes and
    attribute values, every one closed, with the offsets of the rendering. *)
Theorem C21_round_trip : forall U cs void l, good_doc U cs void l ->
  parse U (render_all l) cs void = Ok (nodes_all 0 l).
Proof.
  intros U cs void l [G NS]. set (t := render_all l).
  assert (HU : Utf8 t).
  { unfold t. clear NS. induction G; [apply u_nil|]. cbn [render_all flat_map]. apply u_app; auto. eapply render_utf8; eauto. }
  set (sc0 := scanner_new 0 WithinContent). set (p0 := mkP (node_new 0 (length t)) [] None None None).
  assert (A : at_ t (pos sc0) (render_all l ++ [])) by (rewrite app_nil_r; split; [reflexivity|apply Bd_0; auto]).
  assert (IR : Forall (item_runs U t cs void) l).
  { eapply Forall_impl; [|exact G]. intros h Gh. apply item_ok; auto. }
  destruct (list_from_items U t cs void HU l IR sc0 p0 [] G NS eq_refl A (or_introl eq_refl))
    as (s1 & p1 & R1 & S1 & P1 & C1 & Q1 & _).
  apply run_loop in R1 as (_ & k & K & E). cbn [pos sc0 scanner_new] in K, P1. fold t in P1.
  unfold parse. fold sc0 p0.
  assert (F : exists f, scan_fuel t = k + S f) by (exists (scan_fuel t - k - 1); unfold scan_fuel; lia).
  destruct F as (f & ->). rewrite E. cbn [parse_loop].
  rewrite scan_internal by auto. unfold internal_scan. rewrite S1. unfold scan_content.
  rewrite eos_or_end by lia. cbn [bind tok finish]. cbn [token_eqb]. change (token_eqb EOS EOS) with true. cbn iota.
  cbn [bind]. rewrite Q1. cbn [parents p0 close_all]. rewrite C1. reflexivity.
Qed.

(** ** The same, element by element *)
(** The elements of a document in document order. *)
Fixpoint elements (h : html) : list html :=
  match h with
  | HText _ | HComment _ | HDoctype _ _ => []
  | HElement _ _ _ body _ _ => h :: flat_map elements body
  | HRaw _ _ _ _ _ | HVoid _ _ _ | HSelf _ _ _ => [h]
  end.
Definition h_name (h : html) : str :=
  match h with
  | HText _ | HComment _ | HDoctype _ _ => []
  | HElement n _ _ _ _ _ | HRaw n _ _ _ _ | HVoid n _ _ | HSelf n _ _ => n
  end.
Definition h_attrs (h : html) : list hattr :=
  match h with
  | HText _ | HComment _ | HDoctype _ _ => []
  | HElement _ a _ _ _ _ | HRaw _ a _ _ _ | HVoid _ a _ | HSelf _ a _ => a
  end.
(** A node stands for an element of the document: it has its name, is closed,
    covers exactly what was written for the element, has its attributes with the
    values as written, each recorded where it was written, and as many
    descendants as the element. *)
Record stands_for (t : str) (n : node) (h : html) : Prop := {
  sf_name : n_tag n = Some (h_name h);
  sf_closed : n_closed n = true;
  sf_span : sub t (n_start n) (n_end n) = render h;
  sf_attrs : map (fun x => (fst x, a_value (snd x))) (n_attrs n) =
             map (fun a => (ha_name a, value_text (ha_value a))) (h_attrs h);
  sf_attr_offs : Forall (fun x => exists r, skipn (a_off (snd x)) t = fst x ++ r) (n_attrs n);
  sf_size : length (preorder n) = length (elements h)
}.

Lemma attrs_written l t : forall o s, skipn o t = render_attrs l ++ s ->
  map (fun x => (fst x, a_value (snd x))) (attrs_from o l) =
    map (fun a => (ha_name a, value_text (ha_value a))) l /\
  Forall (fun x => exists r, skipn (a_off (snd x)) t = fst x ++ r) (attrs_from o l).
Proof.
  induction l as [|a l IH]; intros o s H; [split; [reflexivity|constructor]|].
  cbn [render_attrs flat_map] in H. change (flat_map render_attr l) with (render_attrs l) in H. rewrite <- app_assoc in H.
  assert (K : skipn (o + length (render_attr a)) t = render_attrs l ++ s).
  { rewrite Nat.add_comm, <- skipn_skipn, H, skipn_app, skipn_all, Nat.sub_diag. reflexivity. }
  destruct (IH _ _ K) as [A B]. cbn [attrs_from map fst snd a_value]. split; [rewrite A; reflexivity|].
  constructor; auto. cbn [fst snd a_off]. rewrite Nat.add_comm, <- skipn_skipn, H. unfold render_attr.
  rewrite <- !app_assoc, skipn_app, skipn_all, Nat.sub_diag. cbn [skipn app]. eauto.
Qed.
Lemma skip_app {A} (t a s : list A) o : skipn o t = a ++ s -> skipn (o + length a) t = s.
Proof. intros H. rewrite Nat.add_comm, <- skipn_skipn, H, skipn_app, skipn_all, Nat.sub_diag. reflexivity. Qed.
Lemma sub_here t a s o : skipn o t = a ++ s -> sub t o (o + length a) = a.
Proof.
  intros H. unfold sub. rewrite H. replace (o + length a - o) with (length a) by lia.
  rewrite firstn_app, firstn_all, Nat.sub_diag. apply app_nil_r.
Qed.
Lemma tag_attrs t o name attrs pad stop s : skipn o t = start_tag name attrs pad stop ++ s ->
  map (fun x => (fst x, a_value (snd x))) (attrs_from (o + 1 + length name) attrs) =
    map (fun a => (ha_name a, value_text (ha_value a))) attrs /\
  Forall (fun x => exists r, skipn (a_off (snd x)) t = fst x ++ r) (attrs_from (o + 1 + length name) attrs).
Proof.
  intros H. unfold start_tag in H. rewrite <- !app_assoc in H. apply skip_app in H. apply skip_app in H.
  eapply attrs_written; eauto.
Qed.

Lemma stands_list l t : Forall (fun h => forall o s, skipn o t = render h ++ s ->
    Forall2 (stands_for t) (flat_map preorder (nodes_from o h)) (elements h)) l ->
  forall o s, skipn o t = render_all l ++ s ->
  Forall2 (stands_for t) (flat_map preorder (nodes_all o l)) (flat_map elements l).
Proof.
  induction 1 as [|h l H _ IH]; intros o s E; [constructor|].
  cbn [render_all flat_map] in E. change (flat_map render l) with (render_all l) in E. rewrite <- app_assoc in E.
  unfold nodes_all. cbn [nodes_with flat_map]. rewrite flat_map_app. apply Forall2_app; eauto.
  eapply IH. eapply skip_app; eauto.
Qed.
Lemma stands h : forall t o s, skipn o t = render h ++ s ->
  Forall2 (stands_for t) (flat_map preorder (nodes_from o h)) (elements h).
Proof.
  revert h. fix IH 1. intros h t o s E.
  destruct h as [x|x|w x|name attrs pad body close pad2|name attrs pad x pad2|name attrs pad|name attrs pad];
    try (cbn; constructor; fail).
  - cbn [nodes_from flat_map elements]. rewrite app_nil_r, preorder_eq. cbn [n_children].
    change (nodes_with nodes_from ?a body) with (nodes_all a body).
    assert (E2 := E). cbn [render] in E2. change (flat_map render body) with (render_all body) in E2. rewrite <- !app_assoc in E2.
    assert (K : Forall2 (stands_for t)
        (flat_map preorder (nodes_all (o + length (start_tag name attrs pad (bs ">"))) body)) (flat_map elements body)).
    { apply stands_list with (s := end_tag close pad2 ++ s).
      - clear - IH. revert body. fix IHl 1. intros body. destruct body as [|h l]; [constructor|].
        constructor; [intros; eapply IH; eauto|apply IHl].
      - eapply skip_app; eauto. }
    constructor; auto. destruct (tag_attrs _ _ _ _ _ _ _ E2) as [T1 T2].
    constructor; cbn [n_tag n_closed n_start n_end n_attrs h_name h_attrs]; auto.
    + rewrite <- !Nat.add_assoc, <- !app_length. apply sub_here with (s := s). exact E.
    + rewrite preorder_eq. cbn [n_children length elements]. f_equal. clear - K. induction K; cbn [length]; auto.
  - cbn [nodes_from flat_map elements]. cbn [preorder flat_map app]. constructor; [|constructor].
    assert (E2 := E). cbn [render] in E2. rewrite <- !app_assoc in E2.
    destruct (tag_attrs _ _ _ _ _ _ _ E2) as [T1 T2].
    constructor; cbn [n_tag n_closed n_start n_end n_attrs h_name h_attrs]; auto.
    rewrite <- !Nat.add_assoc, <- !app_length. apply sub_here with (s := s). exact E.
  - cbn [nodes_from flat_map elements]. cbn [preorder flat_map app]. constructor; [|constructor].
    cbn [render] in E. destruct (tag_attrs _ _ _ _ _ _ _ E) as [T1 T2].
    constructor; cbn [n_tag n_closed n_start n_end n_attrs h_name h_attrs]; auto.
    apply sub_here with (s := s). exact E.
  - cbn [nodes_from flat_map elements]. cbn [preorder flat_map app]. constructor; [|constructor].
    cbn [render] in E. destruct (tag_attrs _ _ _ _ _ _ _ E) as [T1 T2].
    constructor; cbn [n_tag n_closed n_start n_end n_attrs h_name h_attrs]; auto.
    apply sub_here with (s := s). exact E.
Qed.

Theorem C21_elements : forall U cs void l, good_doc U cs void l ->
  exists roots, parse U (render_all l) cs void = Ok roots /\
    Forall2 (stands_for (render_all l)) (doc_nodes roots) (flat_map elements l).
Proof.
  intros U cs void l G. exists (nodes_all 0 l). split; [apply C21_round_trip; auto|].
  apply stands_list with (s := []).
  - clear. generalize (render_all l). intros t. induction l; constructor; auto. intros. eapply stands; eauto.
  - rewrite app_nil_r. reflexivity.
Qed.

(** ** A document that meets the hypothesis *)
Lemma made_of_ascii (f : N -> Prop) (g : N -> bool) s : (forall c, g c = true -> f c) -> forallb (fun b => (b <? 128)%N && g b) s = true -> made_of f s.
Proof.
  intros FG H. exists s. rewrite forallb_forall in H. split.
  - assert (A : forall b, In b s -> (b < 128)%N) by (intros b I; apply H in I; apply andb_true_iff in I as [I _]; lia).
    clear H. induction s as [|b s IH]; auto. rewrite encode_cons, <- IH by (intros; apply A; cbn; auto).
    unfold encode1. specialize (A b (or_introl eq_refl)). replace (b <? 128)%N with true by lia. reflexivity.
  - intros c I. apply H in I. apply andb_true_iff in I as [I1 I2]. split; auto. unfold scalar. lia.
Qed.
Definition ascii_start (b : N) : bool := ascii_alnum b || (b =? 95)%N || (b =? 58)%N.
Lemma ascii_name U b r : (b < 128)%N -> ascii_start b = true ->
  forallb (fun b => (b <? 128)%N && (ascii_start b || (b =? 45)%N || (b =? 46)%N)) r = true -> good_name U (b :: r).
Proof.
  intros B S R. exists b, r. split; [unfold scalar; lia|]. 
  assert (ST : forall c, (c < 128)%N -> ascii_start c = true -> name_start U c).
  { intros c C H. unfold ascii_start in H. unfold name_start, is_word. replace (c <? 128)%N with true by lia.
    destruct (ascii_alnum c); auto. destruct (N.eqb_spec c 95); auto. destruct (N.eqb_spec c 58); auto. }
  split; [auto|]. split.
  - apply made_of_ascii with (g := fun c => (c <? 128)%N && (ascii_start c || (c =? 45)%N || (c =? 46)%N)).
    + intros c H. apply andb_true_iff in H as [H1 H2]. apply orb_true_iff in H2 as [H2|H2]; [apply orb_true_iff in H2 as [H2|H2]|].
      * left. apply ST; auto. lia.
      * right. left. lia.
      * right. right. lia.
    + rewrite forallb_forall in *. intros c I. specialize (R c I). apply andb_true_iff in R as [R1 R2]. rewrite R1, R2. auto.
  - unfold encode1. replace (b <? 128)%N with true by lia. reflexivity.
Qed.
Ltac name := apply ascii_name; reflexivity.
Ltac blanks := intros ? Hb; cbn in Hb |- *; tauto.
Ltac attrs_tac := split; [repeat (apply Forall_cons || apply Forall_nil)|
  repeat constructor; cbn; intuition discriminate].
Ltac attr_tac := split; [blanks|split; [discriminate|split; [discriminate|split;
   [apply made_of_ascii with (g := attr_char); [intros c Hc; unfold attr_name_char; cbn; unfold attr_char, is_c1 in Hc;
      destruct (is_uspace c); [discriminate|]; split; [auto|]; split; lia|reflexivity]|]]]].
Definition sp : str := bs " ".
Definition demo : list html :=
  [HDoctype (bs "DocType") (bs " html");
   HElement (bs "main") [mkHAttr sp (bs "id") (Quoted [] 34%N (bs "a>b")); mkHAttr (bs "  ") (bs "hidden") NoValue] []
     [HText (bs "x & "); HVoid (bs "br") [] sp; HComment (bs " - -- <b> ");
      HElement (bs "p") [mkHAttr sp (bs "data-n") (Bare sp (bs "4/2"))] []
        [HSelf (bs "my-tag") [mkHAttr sp (bs "k") (Quoted [] 39%N [])] []; HText (bs "end")] (bs "P") sp]
     (bs "main") [];
   HRaw (bs "script") [mkHAttr sp (bs "defer") NoValue] [] (bs "if (a<b && '</p>') {}") [];
   HRaw (bs "style") [] [] [] []].
Lemma demo_good : good_doc demo_unicode false html5_void demo.
Proof.
  assert (NV : forall n, is_void_element n html5_void = false -> ~ In n html5_void).
  { intros n H I. unfold is_void_element in H. rewrite <- not_true_iff_false in H. apply H. apply existsb_exists.
    exists n. split; auto. apply beq_refl. }
  assert (NO : forall m s, find_str m s = None -> ~ occurs m s).
  { intros m s H (a & b & ->). rewrite find_str_none in H. specialize (H (length a) ltac:(rewrite app_length; lia)).
    rewrite skipn_app, skipn_all, Nat.sub_diag in H. cbn [skipn app] in H.
    rewrite (proj2 (is_prefix_spec m (m ++ b))) in H by eauto. discriminate. }
  split; [|cbn; auto].
  apply Forall_cons; [|apply Forall_cons; [|apply Forall_cons; [|apply Forall_cons; [|apply Forall_nil]]]].
  - apply G_doctype; [reflexivity|apply ascii_utf8; reflexivity|cbn; intuition discriminate].
  - apply G_element; try name; try blanks.
    + intros [H|H]; discriminate.
    + apply NV. reflexivity.
    + attrs_tac; attr_tac; cbn [good_value ha_value].
      * split; [blanks|]. split; [auto|]. split; [apply ascii_utf8; reflexivity|cbn; intuition discriminate].
      * exact I.
    + apply Forall_cons; [|apply Forall_cons; [|apply Forall_cons; [|apply Forall_cons; [|apply Forall_nil]]]].
      * apply G_text. split; [discriminate|]. split; [apply ascii_utf8; reflexivity|cbn; intuition discriminate].
      * apply G_void; try name; try blanks; [intros [H|H]; discriminate|cbn; tauto|attrs_tac].
      * apply G_comment; [apply ascii_utf8; reflexivity|]. apply NO. reflexivity.
      * apply G_element; try name; try blanks.
        -- intros [H|H]; discriminate.
        -- apply NV. reflexivity.
        -- attrs_tac; attr_tac. cbn [good_value ha_value]. split; [blanks|]. split; [discriminate|].
           apply made_of_ascii with (g := val_char); [|reflexivity]. intros c H. unfold bare_char, val_char in *.
           destruct (is_uspace c); [discriminate|]. split; auto. cbn. lia.
        -- apply Forall_cons; [|apply Forall_cons; [|apply Forall_nil]].
           ++ apply G_self; try name; try blanks; [attrs_tac; attr_tac; cbn [good_value ha_value]|].
              ** split; [blanks|]. split; [auto|]. split; [apply u_nil|intros []].
              ** intros _ l a gap v E. destruct l as [|? [|? ?]]; inversion E; subst; discriminate.
           ++ apply G_text. split; [discriminate|]. split; [apply ascii_utf8; reflexivity|cbn; intuition discriminate].
        -- cbn. auto.
        -- reflexivity.
    + cbn. auto.
    + reflexivity.
  - apply G_script; try blanks; try (apply NO; reflexivity).
    + apply NV. reflexivity.
    + attrs_tac; attr_tac. exact I.
    + apply Forall_cons; [discriminate|apply Forall_nil].
    + apply ascii_utf8; reflexivity.
  - apply G_style; try blanks; try (apply NO; reflexivity).
    + apply NV. reflexivity.
    + attrs_tac.
    + apply u_nil.
Qed.
Example C21_demo : parse demo_unicode (render_all demo) false html5_void = Ok (nodes_all 0 demo) /\
  render_all demo = bs "<!DocType html><main id=""a>b""  hidden>x & <br ><!-- - -- <b> --><p data-n =4/2><my-tag k=''/>end</P ></main><script defer>if (a<b && '</p>') {}</script><style></style>" /\
  length (doc_nodes (nodes_all 0 demo)) = 6.
Proof. split; [apply C21_round_trip, demo_good|]. split; reflexivity. Qed.

(** ** The limits of the class of documents, each with a document just outside *)
Definition tags_of (s : string) : res (list (option str)) :=
  do l <- parse demo_unicode (bs s) false html5_void; Ok (map n_tag (doc_nodes l)).
(** a script element with a type: its content is read as markup *)
Theorem module_script_refuted :
  tags_of "<script>if(a<b)c</script>" = Ok [Some (bs "script")] /\
  tags_of "<script type=""module"">if(a<b)c</script>" = Ok [Some (bs "script"); Some (bs "b")].
Proof. split; vm_compute; reflexivity. Qed.
(** the end tag of a raw text element is only recognised in lower case *)
Theorem upper_end_refuted :
  tags_of "<style></style><p></p>" = Ok [Some (bs "style"); Some (bs "p")] /\
  tags_of "<style></STYLE><p></p>" = Ok [Some (bs "style")].
Proof. split; vm_compute; reflexivity. Qed.
(** void elements are only recognised in lower case *)
Theorem upper_void_refuted :
  match parse demo_unicode (bs "<p><BR>x</p>") false html5_void with
  | Ok l => map (fun n => (n_tag n, n_closed n)) (doc_nodes l)
  | _ => [] end = [(Some (bs "p"), true); (Some (bs "BR"), false)].
Proof. vm_compute. reflexivity. Qed.
(** the '/' of "/>" after an unquoted value becomes part of the value, as in the
    standard; a bare value never ends in a self-closing tag *)
Example bare_slash :
  match parse demo_unicode (bs "<a b=c/><i></i></a>") false html5_void with
  | Ok l => map (fun n => (n_tag n, n_closed n, map (fun x => a_value (snd x)) (n_attrs n))) (doc_nodes l)
  | _ => [] end = [(Some (bs "a"), true, [Some (bs "c/")]); (Some (bs "i"), true, [])].
Proof. vm_compute. reflexivity. Qed.
Print Assumptions C21_round_trip.
Print Assumptions C21_elements.
