(** * Scanning the beginning of a text: what the scanner does there does not depend on
    the text behind it. *)
From Verif Require Import Base Stream Scanner BaseFacts ScannerFacts ScanStep ScanProps ScanShape ScanResume
  ScanComplete ScanPanic ScanLocal ParseSpec SelAttr NodeScan.
From Coq Require Import ZifyBool ZifyNat ZifyN.

(** ** Names that go on *)
Lemma char_run_more f (w r : str) : forallb (fun c => (c <? 128)%N && f c) w = true -> length w <= char_run f (w ++ r).
Proof.
  induction w as [|c w IH]; intros H; [cbn; lia|]. cbn [forallb] in H. apply andb_true_iff in H as [H1 H2]. apply andb_true_iff in H1 as [A B].
  cbn [app char_run length]. rewrite A, B. specialize (IH H2). lia.
Qed.
Lemma elem_more U c (w r : str) : (c <? 128)%N = true -> name_start_char U c = true -> forallb (fun c => (c <? 128)%N && name_char U c) w = true ->
  exists n, m_element_name U (c :: w ++ r) = Some (0, n) /\ 1 + length w <= n.
Proof.
  intros A B C. unfold m_element_name. assert (D : decode1 (c :: w ++ r) = Some (c, 1)) by (cbn [decode1]; rewrite A; reflexivity).
  rewrite D, B. eexists. split; [reflexivity|]. cbn [skipn]. pose proof (char_run_more (name_char U) w r C). lia.
Qed.
Lemma script_run_end t k p q : script_run t k p q -> q = length t \/ is_prefix (bs "</script") (skipn q t) = true.
Proof. induction 1; auto. Qed.

Section Cut.
Variables (U : unicode) (t : str) (cs : bool) (b : nat).
Hypothesis HB : Bd t b.
Notation x := (sub t 0 b).
Let H0 : Bd t 0 := Bd_0 t (Bd_utf8 _ _ HB).
Let HU : Utf8 t := Bd_utf8 _ _ HB.

Lemma cut_len : length x = b.
Proof. rewrite len_x by (auto; lia). lia. Qed.
Lemma cut_le : b <= length t.
Proof. apply Bd_le. auto. Qed.
Lemma cut_utf8 : Utf8 x.
Proof. apply HUx; auto. lia. Qed.
Lemma cut_nth p : p < b -> nth_error x p = nth_error t p.
Proof. intros L. apply nth_x; lia. Qed.
Lemma cut_nth_some p c : nth_error x p = Some c -> nth_error t p = Some c.
Proof. intros H. pose proof (nth_error_lt _ _ _ H) as L. rewrite cut_len in L. rewrite cut_nth in H; auto. Qed.
Lemma cut_not p c : nth_error t p <> Some c -> nth_error x p <> Some c.
Proof. intros H Q. apply cut_nth_some in Q. auto. Qed.
Lemma cut_prefix w p : p + length w <= b -> is_prefix w (skipn p t) = true -> is_prefix w (skipn p x) = true.
Proof. intros L H. rewrite (prefix_x t 0 b HB ltac:(lia)) by (cbn [Nat.add]; auto). auto. Qed.
Lemma cut_no_prefix w p : w <> [] -> is_prefix w (skipn p t) = false -> is_prefix w (skipn p x) = false.
Proof. intros N H. apply (no_prefix_x t 0 b HB ltac:(lia)); auto. Qed.
Lemma cut_bd p : p <= b -> is_boundary t p = true -> is_boundary x p = true.
Proof.
  intros L H. destruct (Nat.eq_dec p b) as [-> |N]; [unfold is_boundary; rewrite cut_len, Nat.eqb_refl; apply orb_true_iff; left; apply orb_true_r|].
  apply bd_x; auto; lia.
Qed.
Lemma cut_Bd p : p <= b -> Bd t p -> Bd x p.
Proof. intros L H. apply boundary_Bd; [apply cut_utf8|rewrite cut_len; auto|apply cut_bd; auto using Bd_boundary]. Qed.
Lemma cut_sub p q : q <= b -> sub x p q = sub t p q.
Proof. intros L. rewrite (sub_sub t 0 b) by lia. reflexivity. Qed.
Lemma cut_ws p e : skip_ws t p = Some e -> e < b -> skip_ws x p = Some e.
Proof. intros H L. apply (ws_x t 0 b HB ltac:(lia)); auto. Qed.
Lemma cut_no_ws p : skip_ws t p = None -> skip_ws x p = None.
Proof. intros H. apply (no_ws_x t 0 b HB ltac:(lia)); auto. Qed.
Lemma cut_elem p e : elem_name U t p e -> e < b -> elem_name U x p e.
Proof. intros H L. apply (elem_x U t 0 b H0 HB ltac:(lia)); auto. Qed.
Lemma cut_no_elem p : p < b -> is_boundary t p = true -> m_element_name U (skipn p t) = None -> m_element_name U (skipn p x) = None.
Proof. intros L B H. apply (no_elem_x U t 0 b H0 HB ltac:(lia)); auto; lia. Qed.
Lemma cut_first_byte p c e : first_byte t p c e -> e <= b -> first_byte x p c e.
Proof.
  intros (A1 & A2 & A3 & A4) L. split; [lia|]. rewrite cut_len. split; auto. split.
  - intros i I1 I2. rewrite cut_nth by lia. auto.
  - destruct (Nat.eq_dec e b); [left; auto|right]. rewrite cut_nth by lia. pose proof cut_le. destruct A4; auto. lia.
Qed.
Lemma cut_first_str p w e : w <> [] -> first_str t p w e -> e + length w <= b -> first_str x p w e.
Proof.
  intros N (A1 & A2 & A3 & A4) L. split; [lia|]. rewrite cut_len. split; [lia|]. split.
  - intros i I1 I2. apply cut_no_prefix; auto.
  - left. apply cut_prefix; auto. destruct A4 as [A4|[A4 _]]; auto. pose proof cut_le. destruct w; [congruence|]. cbn [length] in L. lia.
Qed.
Lemma cut_run f p : p < b -> is_boundary t p = true -> p + char_run f (skipn p t) < b -> char_run f (skipn p x) = char_run f (skipn p t).
Proof. intros L B R. apply (run_x t 0 b H0 HB ltac:(lia)); auto; lia. Qed.
Lemma cut_no_attr sc : pos sc < b -> no_attr x sc = no_attr t sc.
Proof. intros L. unfold no_attr. rewrite (peek_x t 0 b ltac:(lia)) by lia. reflexivity. Qed.
Lemma cut_doctype p : p + 8 <= b -> m_doctype (skipn p t) = Some (0, 8) -> m_doctype (skipn p x) = Some (0, 8).
Proof.
  intros L H. assert (E : skipn p t = skipn p x ++ skipn b t) by (destruct (skipn_x t 0 b p) as [E|]; [exact E|lia]).
  assert (LX : 8 <= length (skipn p x)) by (rewrite skipn_length, cut_len; lia).
  rewrite E in H. clear E. unfold m_doctype in *. destruct (skipn p x) as [|c r]; [cbn in LX; lia|]. cbn [app length] in *.
  rewrite firstn_app in H. replace (7 - length r) with 0 in H by lia. rewrite firstn_O, app_nil_r in H. exact H.
Qed.
Lemma cut_no_doctype p : m_doctype (skipn p t) = None -> m_doctype (skipn p x) = None.
Proof.
  intros H. destruct (m_doctype (skipn p x)) as [[u v]|] eqn:Q; auto. exfalso.
  assert (L : p + 8 <= b). { apply m_doctype_some in Q as (_ & _ & Q & _). rewrite skipn_length, cut_len in Q. lia. }
  assert (E : skipn p t = skipn p x ++ skipn b t) by (destruct (skipn_x t 0 b p) as [E|]; [exact E|lia]).
  assert (LX : 8 <= length (skipn p x)) by (rewrite skipn_length, cut_len; lia).
  rewrite E in H. clear E. unfold m_doctype in *. destruct (skipn p x) as [|c r]; [cbn in LX; lia|]. cbn [app length] in *.
  rewrite firstn_app in H. replace (7 - length r) with 0 in H by lia. rewrite firstn_O, app_nil_r in H. congruence.
Qed.
Lemma cut_script k p q : script_run t k p q -> q + 8 <= b -> script_run x k p q.
Proof.
  pose proof cut_le as LL.
  induction 1 as [k|k p q A1 A2 A3 A4 A5 R IH|k p q A R IH|k p q A R IH|k p q A R IH|p q A R IH|k p N A]; intros L;
    try (apply script_run_le in R as LE).
  - lia.
  - apply SR_char; auto; try (apply cut_no_prefix; [discriminate|assumption]). rewrite cut_len. lia.
  - apply SR_open_comment; auto. apply cut_prefix; auto. change (length (bs "<!--")) with 4. lia.
  - apply SR_close_comment; auto. apply cut_prefix; auto. change (length (bs "-->")) with 3. lia.
  - apply SR_open_script; auto. apply cut_prefix; auto. change (length (bs "<script")) with 7. lia.
  - apply SR_close_nested; auto. apply cut_prefix; auto. change (length (bs "</script")) with 8. lia.
  - apply SR_close; auto. apply cut_prefix; auto.
Qed.

(** The steps that can be repeated on the beginning. *)
Definition kept (sc sc' : scanner) : Prop :=
  pos sc' <= b /\
  match tok sc' with
  | StartTagClose | StartTagSelfClose | EndTagClose | StartCommentTag | EndCommentTag | StartDoctypeTag | EndDoctypeTag
  | EndTagOpen | Content | Unknown => True
  | Comment => pos sc' + 3 <= b
  | Script => pos sc' + 8 <= b
  | Styles => pos sc' + 7 <= b
  | _ => pos sc' < b
  end /\
  (st sc = WithinScriptContent -> tok sc' <> Script -> pos sc + 8 <= b) /\
  (st sc = WithinStyleContent -> tok sc' <> Styles -> pos sc + 7 <= b).

Lemma tag_cut e sc sc' : tag_outcome U t e cs sc sc' -> pos sc < b ->
  pos sc' <= b -> match tok sc' with StartTagClose | StartTagSelfClose | Unknown => True | _ => pos sc' < b end -> tag_outcome U x e cs sc sc'.
Proof.
  intros H L L1 K. inversion H; subst sc'; cbn [finish pos tok] in L1, K.
  - apply TO_ws. apply cut_ws; auto.
  - rewrite <- (cut_sub (pos sc) e0) by lia. apply TO_attr; auto using cut_no_ws. destruct H3 as (A1 & A2 & A3 & A4).
    split; auto. rewrite cut_len. split; [lia|]. split; [apply cut_bd; auto; lia|]. rewrite cut_run; auto; lia.
  - rewrite <- cut_no_attr by auto. apply TO_self_close. apply cut_prefix; auto.
  - rewrite <- cut_no_attr by auto. apply TO_close. rewrite cut_nth; auto.
  - rewrite <- cut_no_attr by auto. apply TO_pseudo; auto. rewrite cut_nth; auto.
  - rewrite <- cut_no_attr by auto. apply TO_unknown; auto using cut_no_ws, cut_not.
    + apply cut_no_prefix; auto. discriminate.
    + intros S. destruct (H5 S) as [S1 S2]. split; [apply cut_bd; auto; lia|]. rewrite cut_run; auto. lia.
Qed.
Lemma outcome_cut e sc sc' : outcome U t e cs sc sc' -> pos sc < b -> is_boundary t (pos sc) = true -> kept sc sc' -> outcome U x e cs sc sc'.
Proof.
  intros H L BD (L1 & K & KS & KY). pose proof cut_le as LE.
  assert (CL : tok sc' <> Script -> tok sc' <> Styles -> content_like t sc -> content_like x sc).
  { intros N1 N2 [C|[[C R]|[C R]]]; [left; auto|right; left|right; right]; split; auto.
    - apply cut_script; auto.
    - apply cut_prefix; auto. }
  inversion H; subst sc'; cbn [finish pos tok] in L1, K, KS, KY, CL; try (specialize (CL ltac:(discriminate) ltac:(discriminate))).
  - lia.
  - apply O_end_comment; auto. apply cut_prefix; auto.
  - apply O_comment; auto; [rewrite cut_len; auto|apply cut_no_prefix; auto; discriminate|].
    apply cut_first_str; auto. discriminate.
  - apply O_end_doctype; auto. rewrite cut_nth; auto.
  - apply O_doctype; auto; [rewrite cut_len; auto|apply cut_not; auto|apply cut_first_byte; auto].
  - apply O_start_comment; auto. apply cut_prefix; auto.
  - apply O_start_doctype; auto; [rewrite cut_nth; auto|apply cut_bd; auto; lia|apply cut_doctype; auto; lia].
  - apply O_end_tag_open; auto; rewrite cut_nth; auto; lia.
  - apply O_start_tag_open; auto; [rewrite cut_nth; auto|apply cut_no_prefix; auto; discriminate|apply cut_not; auto|apply cut_no_doctype; auto].
  - apply O_content; auto; [rewrite cut_len; auto|apply cut_not; auto|apply cut_first_byte; auto].
  - apply O_end_tag; auto. apply cut_elem; auto.
  - apply O_end_tag_ws; auto. apply cut_ws; auto.
  - apply O_end_tag_unknown; auto using cut_no_ws, cut_no_elem. apply cut_first_byte; auto.
  - apply O_end_tag_ws2; auto. apply cut_ws; auto.
  - apply O_end_tag_close; auto. rewrite cut_nth; auto.
  - apply O_end_tag_pseudo; auto. rewrite cut_nth; auto.
  - apply O_end_tag_unexpected; auto using cut_no_ws, cut_not. rewrite cut_len; auto.
  - rewrite <- (cut_sub (pos sc) e0) by auto. apply O_start_tag; auto. apply cut_elem; auto.
  - apply O_start_tag_ws; auto. apply cut_ws; auto.
  - apply O_start_tag_unknown; auto using cut_no_ws, cut_no_elem. apply cut_first_byte; auto.
  - apply O_in_tag with (sc1 := sc1); [rewrite cut_len; auto| |].
    + inversion H2; subst sc1.
      * apply ET_tag; auto.
      * apply ET_open; auto. rewrite cut_nth; auto.
      * apply ET_attr; auto using cut_no_ws, cut_not.
      * apply ET_value; auto using cut_no_ws, cut_not, cut_bd; [apply cut_bd; auto; lia|]. rewrite cut_run; auto. lia.
    + assert (E : pos sc1 = pos sc) by (inversion H2; reflexivity). apply tag_cut; auto; [lia|].
      inversion H3; subst; cbn [finish tok pos] in *; auto.
  - apply O_attr_ws; auto. apply cut_ws; auto.
  - apply O_assign; auto. rewrite cut_nth; auto.
  - apply O_value_ws; auto. apply cut_ws; auto.
  - rewrite <- (cut_sub (pos sc) e0) by auto. apply O_value_plain; auto using cut_no_ws.
    destruct H3 as (A1 & A2 & A3 & n & N1 & N2 & N3). split; auto. rewrite cut_len. split; auto. split; [apply cut_bd; auto; lia|].
    exists n. assert (pos sc + n < b) by (destruct N3 as [[-> _]|[-> _]]; lia). split; auto. split; [rewrite cut_run; auto; lia|].
    rewrite !cut_nth by lia. auto.
  - rewrite <- (cut_sub (pos sc + 1) (e0 - 1)), <- (cut_sub (e0 - 1) (pos sc + 1)) by lia. apply O_value_quoted; auto.
    + destruct H2 as (q & Q1 & Q2 & Q3 & Q4 & Q5 & Q6). exists q. split; auto. rewrite cut_nth by auto. split; auto. split; auto. rewrite cut_len.
      split; auto. split; [intros i I1 I2; rewrite cut_nth by lia; auto|]. rewrite cut_nth by lia. destruct Q6 as [Q6|[Q6 _]]; [auto|lia].
    + intros T. destruct (H3 T). split; apply cut_bd; auto; lia.
  - apply O_script; auto; [apply cut_script; auto|]. rewrite cut_len. destruct H4 as [|[? ?]]; [auto|lia].
  - apply O_style; auto. apply cut_first_str; auto. discriminate.
Qed.
Lemma scan_cut e sc sc' : scan U t e cs sc = Ok sc' -> pos sc < b -> Bd t (pos sc) -> kept sc sc' -> scan U x e cs sc = Ok sc'.
Proof.
  intros S L B K. assert (O : outcome U x e cs sc sc').
  { apply outcome_cut; auto; [apply scan_outcome; auto|apply Bd_boundary; auto]. }
  assert (BX : Bd x (pos sc)) by (apply cut_Bd; auto; lia).
  destruct (token_eqb (tok sc') Script) eqn:T; [|apply outcome_scan; auto; [apply cut_utf8|apply token_eqb_neq; auto]].
  apply token_eqb_eq in T. clear S. destruct K as (K1 & K2 & _). rewrite T in K2.
  inversion O; subst sc'; try discriminate T; cbn [finish pos] in *.
  - inversion H2; subst; discriminate T.
  - rewrite scan_internal by apply cut_utf8. unfold internal_scan. rewrite H. unfold scan_script. rewrite eos_or_go by (rewrite cut_len; auto).
    destruct (script_loop_spec x cut_utf8 (length x) 1 (pos sc) BX ltac:(lia)) as (fin & q & E1 & E2 & E3).
    rewrite E1. cbn [bind]. assert (q = e0) by (eapply script_run_det; eauto). subst q. rewrite cut_len in *.
    destruct fin; [specialize (E3 eq_refl); lia|]. replace (pos sc <? e0) with true by lia.
    destruct H3 as [-> |[-> Q]]; [reflexivity|lia].
Qed.

(** ** Steps up to the cut *)
Inductive steps : scanner -> list scanner -> scanner -> Prop :=
| st_nil sc : steps sc [] sc
| st_cons sc y m z : Bd t (pos sc) -> scan U t true cs sc = Ok y -> tok y <> EOS -> pos sc < pos y -> steps y m z -> steps sc (y :: m) z.
Lemma steps_le sc m z : steps sc m z -> pos sc <= pos z.
Proof. induction 1; lia. Qed.
Lemma steps_inv sc m z : steps sc m z -> pos sc < pos z -> exists y r, m = y :: r /\ Bd t (pos sc) /\ scan U t true cs sc = Ok y /\
  outcome U t true cs sc y /\ tok y <> EOS /\ pos sc < pos y /\ steps y r z.
Proof. intros H L. inversion H; subst; [lia|]. exists y, m0. repeat split; auto. apply scan_outcome; auto. Qed.
Lemma steps_same sc m z : steps sc m z -> pos sc = pos z -> sc = z.
Proof. intros H L. inversion H; subst; auto. apply steps_le in H5. lia. Qed.

Section To.
Variable z : scanner.
Hypothesis HZ : pos z = b.
Hypothesis HW : st z = WithinContent.
Hypothesis HC : tok z <> Script /\ tok z <> Styles.

Lemma ahead sc m : steps sc m z -> st sc <> WithinContent -> pos sc < b.
Proof.
  intros H N. pose proof (steps_le _ _ _ H) as L. destruct (Nat.eq_dec (pos sc) b) as [E|E]; [|lia].
  exfalso. apply N. rewrite (steps_same _ _ _ H); auto. congruence.
Qed.

Lemma end_room w v c sc m : steps sc m z -> pos sc < b -> w = LT :: SLASH :: c :: v ->
  is_prefix w (skipn (pos sc) t) = true -> st sc = WithinContent \/ (st sc = WithinScriptContent /\ w = bs "</script") \/
    (st sc = WithinStyleContent /\ w = bs "</style") ->
  (c <? 128)%N = true -> is_ws c = false -> c <> GT -> name_start_char U c = true -> forallb (fun c => (c <? 128)%N && name_char U c) v = true ->
  pos sc + length w <= b.
Proof.
  intros H L W P C C1 C2 C3 C4 C5. rewrite <- HZ in L. destruct (steps_inv _ _ _ H L) as (y & r & -> & B & S & O & NE & PR & R).
  apply is_prefix_spec in P as (tl & P). rewrite W in P. cbn [app] in P.
  assert (NX : forall i, nth_error t (pos sc + i) = nth_error (LT :: SLASH :: c :: v ++ tl) i) by (intros i; rewrite <- skipn_nth_error, P; reflexivity).
  pose proof (NX 0) as N0. pose proof (NX 1) as N1. pose proof (NX 2) as N2. cbn [nth_error] in N0, N1, N2. rewrite Nat.add_0_r in N0.
  assert (Y : st y = AfterOpeningEndTag /\ pos y = pos sc + 2).
  { clear S NE R. inversion O; subst y; cbn [finish st pos] in *; auto; exfalso.
    all: try (destruct C as [C|[[C _]|[C _]]]; congruence).
    - lia.
    - rewrite P in H2. cbn in H2. discriminate.
    - apply m_doctype_some in H4 as (_ & _ & _ & Q & _). rewrite skipn_nth_error, Nat.add_0_r in Q. rewrite N1 in Q. discriminate Q.
    - destruct H1 as [H1|H1]; destruct C as [C|[[C _]|[C _]]]; congruence.
    - inversion H2; subst; destruct C as [C|[[C _]|[C _]]]; congruence.
    - assert (W1 : w = bs "</script") by (destruct C as [C|[[C D]|[C _]]]; congruence). 
      assert (Q : script_run t 1 (pos sc) (pos sc)).
      { apply SR_close; [lia|]. rewrite P. apply is_prefix_spec. exists tl. rewrite <- W1, W. reflexivity. }
      pose proof (script_run_det _ _ _ _ _ H3 Q). lia.
    - assert (W1 : w = bs "</style") by (destruct C as [C|[[C D]|[C D]]]; congruence). 
      destruct H3 as (_ & _ & Q & _). specialize (Q (pos sc) ltac:(lia) ltac:(lia)). rewrite P in Q.
      assert (Q' : is_prefix (bs "</style") (LT :: SLASH :: c :: v ++ tl) = true) by (apply is_prefix_spec; exists tl; rewrite <- W1, W; reflexivity).
      congruence. }
  destruct Y as [Y1 Y2]. assert (L2 : pos y < pos z) by (rewrite HZ; eapply ahead; eauto; congruence).
  destruct (steps_inv _ _ _ R L2) as (y2 & r2 & -> & B2 & S2 & O2 & NE2 & PR2 & R2). apply steps_le in R2.
  assert (EN : exists n, m_element_name U (skipn (pos y) t) = Some (0, n) /\ 1 + length v <= n).
  { replace (skipn (pos y) t) with (c :: v ++ tl); [apply elem_more; auto|]. rewrite Y2. replace (pos sc + 2) with (2 + pos sc) by lia. rewrite <- skipn_skipn, P. reflexivity. }
  destruct EN as (n & EN & LN). rewrite <- Y2 in N2.
  assert (NW : skip_ws t (pos y) = None).
  { destruct (skip_ws t (pos y)) as [q|] eqn:Q; auto. exfalso. apply skip_ws_some in Q as (Q1 & Q2 & Q3 & _).
    destruct (Q3 (pos y) ltac:(lia) ltac:(lia)) as (c' & Q4 & Q5). congruence. }
  assert (PY : pos y2 = pos y + n).
  { clear S2 NE2 R2. inversion O2; subst y2; cbn [finish st pos] in *; auto; try congruence.
    all: try (exfalso; match goal with X : content_like _ _ |- _ => destruct X as [X|[[X _]|[X _]]]; congruence end).
    - lia.
    - destruct H2 as (E1 & E2 & E3 & E4). assert (e - pos y = n) by congruence. lia.
    - exfalso. inversion H2; congruence. }
  rewrite W. cbn [length]. lia.
Qed.
Lemma script_room sc m : steps sc m z -> pos sc < b -> is_prefix (bs "</script") (skipn (pos sc) t) = true ->
  st sc = WithinContent \/ st sc = WithinScriptContent -> pos sc + 8 <= b.
Proof.
  intros H L P S. change 8 with (length (bs "</script")). eapply (end_room (bs "</script") (bs "cript") 115%N); eauto.
  - destruct S; auto.
  - discriminate.
Qed.
Lemma style_room sc m : steps sc m z -> pos sc < b -> is_prefix (bs "</style") (skipn (pos sc) t) = true ->
  st sc = WithinContent \/ st sc = WithinStyleContent -> pos sc + 7 <= b.
Proof.
  intros H L P S. change 7 with (length (bs "</style")). eapply (end_room (bs "</style") (bs "tyle") 115%N); eauto.
  - destruct S; auto.
  - discriminate.
Qed.

Lemma steps_kept sc y m : steps sc (y :: m) z -> pos sc < b /\ kept sc y.
Proof.
  intros H. inversion H as [|? ? ? ? B S NE PR R]; subst. pose proof (steps_le _ _ _ R) as LE. rewrite HZ in LE.
  split; [lia|]. pose proof (scan_outcome _ _ _ _ HU _ _ S) as O. pose proof cut_le as CL.
  assert (AH : st y <> WithinContent -> pos y < b) by (eapply ahead; eauto).
  assert (LS : pos y = b -> y = z) by (intros E; eapply steps_same; eauto; congruence).
  split; [auto|]. split; [|split].
  - clear S. inversion O; subst y; cbn [finish st pos tok] in *; auto; try (apply AH; discriminate); try lia.
    + (* a comment *)
      specialize (AH ltac:(discriminate)). destruct (steps_inv _ _ _ R) as (y2 & r2 & -> & _ & _ & O2 & _ & P2 & R2); [cbn; lia|].
      apply steps_le in R2. cbn [finish pos] in P2. destruct H4 as (_ & _ & _ & [Q|[Q _]]); [|lia].
      inversion O2; subst y2; cbn [finish st pos] in *; try lia; try congruence; try discriminate.
      all: try (exfalso; match goal with X : content_like _ _ |- _ => destruct X as [X|[[X _]|[X _]]]; discriminate end).
      * destruct H4; discriminate.
      * inversion H5; discriminate.
    + inversion H3; subst; cbn [finish st pos tok] in *; auto; try (apply AH; discriminate).
      rewrite (enter_tag_st _ _ _ H2) in *. apply AH. discriminate.
    + (* a script *)
      destruct (Nat.eq_dec e b) as [E|E]; [exfalso; apply (proj1 HC); rewrite <- (LS E); reflexivity|].
      eapply (script_room _ _ R); cbn [finish pos st]; [lia| |destruct H4 as [|[? ?]]; auto].
      destruct (script_run_end _ _ _ _ H3); [lia|auto].
    + (* a style *)
      destruct (Nat.eq_dec e b) as [E|E]; [exfalso; apply (proj2 HC); rewrite <- (LS E); reflexivity|].
      eapply (style_room _ _ R); cbn [finish pos st]; [lia| |auto].
      destruct H3 as (_ & _ & _ & [Q|[Q _]]); [auto|lia].
  - intros S0 NS. eapply script_room; eauto; [lia|]. clear S.
    assert (C : content_like t sc).
    { inversion O; subst y; cbn [finish tok] in *; auto; try congruence; try (destruct H1; congruence). inversion H2; congruence. }
    destruct C as [C|[[C Q]|[C _]]]; try congruence. destruct (script_run_end _ _ _ _ Q); [lia|auto].
  - intros S0 NS. eapply style_room; eauto; [lia|]. clear S.
    assert (C : content_like t sc).
    { inversion O; subst y; cbn [finish tok] in *; auto; try congruence; try (destruct H1; congruence). inversion H2; congruence. }
    destruct C as [C|[[C Q]|[C Q]]]; try congruence.
Qed.
End To.
End Cut.
