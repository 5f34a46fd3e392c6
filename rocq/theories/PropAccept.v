(** * C71: accepting a proposal *)
From Verif Require Import SelectionRange PropTags PropSelection Base BaseFacts Stream Scanner ScannerFacts ScanStep ScanProps ScanShape ScanPanic Tree
  Parser ParseSpec ParseInv ParseOrder PropParse TreeFacts PropTree ParseEnd PropEnd TextDoc PropDoc
  SelAttr TokenLoop NodeScan DataManager PropData BuiltinData Entities Hover Completion PropTagComplete
  PropHover PropComplete PropEdits PropAnswers PropProposals Render RenderFacts PropRender PropRename FormatFacts FormatWords PropLinks LayoutTree ParseKeep PropTyped PropScan ScanComplete.
From Coq Require Import ZifyBool ZifyNat ZifyN Permutation.

(** ** Specification *)
(** What a client inserts for a snippet: its text without the tab stops; a backslash makes the '$', '}' or
    backslash behind it an ordinary character. *)
Inductive expands : str -> str -> Prop :=
| ex_nil : expands [] []
| ex_char c s r : c <> 36%N -> c <> 92%N -> expands s r -> expands (c :: s) (c :: r)
| ex_escape c s r : c = 36%N \/ c = 92%N \/ c = 125%N -> expands s r -> expands (92%N :: c :: s) (c :: r)
| ex_stop n s r : n <> [] -> (forall c, In c n -> (48 <= c <= 57)%N) ->
    (forall c q, s = c :: q -> ~ (48 <= c <= 57)%N) -> expands s r -> expands (36%N :: n ++ s) r.
(** Text in which a snippet has nothing to expand. *)
Definition plain (s : str) : Prop := ~ In 36%N s /\ ~ In 92%N s.
(** The text after the proposal [i] has been accepted. *)
Definition accepted (d : textdoc) (i : item) (after : str) : Prop :=
  exists r s y, ci_edit i = Some (r, s) /\ (ci_format i = Some FSnippet -> expands s y) /\ (ci_format i <> Some FSnippet -> y = s) /\
    after = edited d [(r, y)].
(** Elements with a start tag that is not that of a script or style sheet. *)
Definition tag_attrs (h : html) : option (list hattr * str) :=
  match h with
  | HElement _ attrs pad _ _ _ | HVoid _ attrs pad | HSelf _ attrs pad => Some (attrs, pad)
  | _ => None
  end.
(** The element with other attributes. *)
Definition with_attrs (attrs : list hattr) (pad : str) (h : html) : html :=
  match h with
  | HElement name _ _ body close pad2 => HElement name attrs pad body close pad2
  | HVoid name _ _ => HVoid name attrs pad
  | HSelf name _ _ => HSelf name attrs pad
  | _ => h
  end.

(** ** Snippets *)
Lemma plain_expands s t r : plain s -> expands t r -> expands (s ++ t) (s ++ r).
Proof.
  intros [P1 P2] E. induction s as [|c s IH]; auto. cbn [app]. constructor.
  - intros ->. apply P1. cbn. auto.
  - intros ->. apply P2. cbn. auto.
  - apply IH; intros H; [apply P1|apply P2]; cbn; auto.
Qed.
Lemma stop_expands n s r : (48 <= n <= 57)%N -> (forall c q, s = c :: q -> ~ (48 <= c <= 57)%N) -> expands s r -> expands (36%N :: n :: s) r.
Proof. intros N S E. apply (ex_stop [n] s r); auto; [discriminate|]. intros c [<-|[]]. auto. Qed.
Lemma digits_split (n s n' s' : str) : (forall c, In c n -> (48 <= c <= 57)%N) -> (forall c, In c n' -> (48 <= c <= 57)%N) ->
  (forall c q, s = c :: q -> ~ (48 <= c <= 57)%N) -> (forall c q, s' = c :: q -> ~ (48 <= c <= 57)%N) -> n ++ s = n' ++ s' -> s = s'.
Proof.
  revert n'. induction n as [|c n IH]; intros [|c' n'] A B C D E; cbn [app] in E; auto.
  - subst s. exfalso. eapply C; [reflexivity|]. apply B. cbn; auto.
  - subst s'. exfalso. eapply D; [reflexivity|]. apply A. cbn; auto.
  - injection E as _ E. apply (IH n'); auto; intros x X; [apply A|apply B]; cbn; auto.
Qed.
(** A snippet has one expansion. *)
Lemma expands_unique s r r' : expands s r -> expands s r' -> r = r'.
Proof.
  intros E. revert r'. induction E as [|c s r C1 C2 E IH|c s r C E IH|n s r N1 N2 N3 E IH]; intros r' E'.
  - inversion E'; auto.
  - inversion E'; subst; try congruence. f_equal. auto.
  - inversion E'; subst; try congruence. f_equal. auto.
  - remember (36%N :: n ++ s) as w eqn:W. destruct E' as [|c s' r' C1 C2 E'|c s' r' C E'|n' s' r' M1 M2 M3 E']; try discriminate; try congruence.
    injection W as W. apply IH. assert (s' = s) by (apply (digits_split n' s' n s); auto). subst s'. auto.
Qed.

(** ** The tokens of start tags *)
Section Runs.
Variables (U : unicode) (t : str) (cs : bool) (void : list str).
Hypothesis HU : Utf8 t.
Notation run := (run U t cs void).
Notation at_ := (RenderFacts.at_ t).

(** Up to the white space behind some attributes. *)
Lemma tag_opens sc p name attrs e s : content_like t sc ->
  at_ (pos sc) (bs "<" ++ name ++ render_attrs attrs ++ e :: s) ->
  good_name U name -> good_attrs attrs -> is_ws e = true ->
  exists sc1 p1, run sc p sc1 p1 /\ RenderFacts.in_tag sc1 /\ at_ (pos sc1) (e :: s) /\
    pos sc1 = pos sc + 1 + length name + length (render_attrs attrs) /\
    cur p1 = mkNode (Some name) (pos sc) (length t) [] false None None (attrs_from (pos sc + 1 + length name) attrs).
Proof.
  intros CL A GN [GA1 GA2] We. destruct (name_first_byte _ _ GN) as (c & r & En & Wc & N1 & N2 & N3 & N4 & N5).
  destruct (good_name_utf8 _ _ GN) as [Un NE].
  pose proof (at_len _ _ _ A) as L. rewrite !app_length in L. cbn [length bs] in L.
  assert (A1 := A). apply at_adv in A1; [|auto|apply u_one; reflexivity]. change (length (bs "<")) with 1 in A1.
  set (s1 := finish sc (pos sc) StartTagOpen None (pos sc + 1) AfterOpeningStartTag).
  set (p1 := mkP (node_new (pos sc) (length t)) (cur p :: parents p) (end_tag_start p) (end_tag_name p) (pending p)).
  assert (Nx : nth_error t (pos sc + 1) = Some c).
  { eapply at_first. rewrite En in A1. exact A1. }
  assert (R1 : run sc p s1 p1).
  { apply one; cbn [tok finish pos s1]; try discriminate; try lia; auto.
    - apply O_start_tag_open; auto.
      + eapply at_first. exact A.
      + destruct A as [-> _]. rewrite En. cbn [app bs is_prefix]. destruct (N.eqb_spec (N_of_ascii "!") c) as [Q|Q]; auto.
        exfalso. apply N1. rewrite <- Q. reflexivity.
      + rewrite Nx. unfold SLASH; congruence.
      + destruct A1 as [-> _]. rewrite En. cbn [app m_doctype].
        replace (N.eqb c 33) with false by lia. reflexivity.
    - apply A. }
  assert (EXd : exists d rest', render_attrs attrs ++ e :: s = d :: rest' /\ stops d).
  { destruct attrs as [|a attrs].
    - exists e, s. split; auto. left. auto.
    - inversion GA1 as [|? ? Ga _]; subst. destruct Ga as (B1 & B2 & _).
      destruct (ha_space a) as [|d w] eqn:E; [tauto|]. rewrite blank_ws in B1. exists d.
      eexists. split; [cbn [render_attrs flat_map]; unfold render_attr at 1; rewrite E; reflexivity|].
      left. apply B1. cbn; auto. }
  destruct EXd as (d & rest' & Ed & Sd). rewrite Ed in A1.
  pose proof (at_elem _ _ _ _ _ _ A1 GN Sd) as EN. pose proof (at_sub _ _ _ _ A1) as SB.
  pose proof (at_slice _ HU _ _ _ A1 Un) as SL.
  assert (LN : 0 < length name) by (rewrite En; cbn; lia).
  set (s2 := finish (set_space false (set_last_tag (Some (norm U cs name)) (reset s1))) (pos s1) StartTag None
                    (pos s1 + length name) WithinTag).
  set (p2 := upd_cur (set_tag (Some name)) p1).
  assert (R2 : run s1 p1 s2 p2).
  { apply one; cbn [tok finish pos s2]; try discriminate; try lia; auto.
    - unfold s2. rewrite <- SB at 1. change (pos sc + 1) with (pos s1). apply O_start_tag; auto.
    - apply A1.
    - unfold pstep. cbn [tok finish s2]. unfold token_text. cbn [tok_off pos finish s2 s1]. rewrite SL. reflexivity. }
  apply at_adv in A1; auto. rewrite <- Ed in A1. change (pos sc + 1 + length name) with (pos s2) in A1.
  destruct (attrs_run U t cs void HU attrs s2 p2 e s) as (s3 & p3 & R3 & I3 & P3 & T3 & Y3 & C3 & Q3); auto.
  { left. reflexivity. }
  { left. exact We. }
  { intros ->. discriminate. }
  apply at_adv in A1; [|auto|apply attrs_utf8; auto]. rewrite <- P3 in A1.
  exists s3, p3. split; [eapply run_trans; eauto; eapply run_trans; eauto|].
  split; [exact I3|]. split; [exact A1|]. split.
  { rewrite P3. cbn [pos s2 s1 finish]. lia. }
  rewrite C3. reflexivity.
Qed.

(** The white space. *)
Lemma space_token sc p w s : RenderFacts.in_tag sc -> at_ (pos sc) (w ++ s) -> blank w -> w <> [] ->
  (forall b r, s = b :: r -> is_ws b = false) ->
  exists sc1, run sc p sc1 p /\ at_ (pos sc1) s /\ RenderFacts.in_tag sc1 /\ has_space sc1 = true /\
    pos sc1 = pos sc + length w /\ tok sc1 = Whitespace /\ tok_off sc1 = pos sc.
Proof.
  intros I A W NE S. pose proof (at_ws _ _ _ _ A W NE S) as K.
  pose proof (at_len _ _ _ A) as L. rewrite app_length in L.
  assert (NE' : 0 < length w) by (destruct w; [tauto|cbn; lia]).
  exists (finish (set_space true sc) (pos sc) Whitespace None (pos sc + length w) (st sc)).
  split; [|split; [cbn [pos finish]; eapply at_adv; eauto; apply blank_utf8; auto|cbn; unfold RenderFacts.in_tag; cbn; auto 6]].
  apply one; cbn [tok finish pos]; try discriminate; try lia; auto.
  - destruct I as [I|I].
    + eapply O_in_tag; [lia|apply ET_tag; auto|]. apply TO_ws; auto.
    + rewrite I. apply O_attr_ws; auto.
  - apply A.
Qed.

(** A name, behind the white space. *)
Lemma name_token s1 p n d s : RenderFacts.in_tag s1 -> has_space s1 = true -> at_ (pos s1) (n ++ d :: s) ->
  made_of attr_name_char n -> n <> [] -> stops d \/ d = 61%N -> attr_get n (n_attrs (cur p)) = None ->
  exists s2 p2, run s1 p s2 p2 /\ at_ (pos s2) (d :: s) /\ st s2 = AfterAttributeName /\ pos s2 = pos s1 + length n /\
    tok s2 = AttributeName /\ tok_off s2 = pos s1 /\
    p2 = mkP (set_attrs (n_attrs (cur p) ++ [(n, Tree.mkAttr None (pos s1))]) (cur p)) (parents p) (end_tag_start p) (end_tag_name p) (Some n).
Proof.
  intros I H1 A G4 G3 Sd F. destruct (attr_first _ G4 G3) as (c & r & En & Wc & Ec).
  pose proof (at_attr _ _ _ _ _ A G4 G3 Sd) as AN. pose proof (made_of_utf8 _ _ G4) as Un.
  pose proof (at_slice _ HU _ _ _ A Un) as SL. pose proof (at_sub _ _ _ _ A) as SB.
  assert (NE : 0 < length n) by (rewrite En; cbn; lia).
  pose proof (at_len _ _ _ A) as L. rewrite app_length in L. cbn [length] in L.
  assert (A' := A). rewrite En in A'. cbn [app] in A'.
  set (s2 := finish (set_space false (set_last_attr (Some (norm U cs n)) (set_st WithinTag s1)))
               (pos s1) AttributeName None (pos s1 + length n) AfterAttributeName).
  eexists s2, _. split; [|split; [|split; [|split; [|split; [|split; [|reflexivity]]]]]]; try reflexivity.
  - apply one; cbn [tok finish pos s2]; try discriminate; try lia; auto.
    + eapply O_in_tag; [lia|eapply enter; eauto|].
      unfold s2. rewrite <- SB at 1. change (pos s1) with (pos (set_st WithinTag s1)) at 1 2 3.
      apply TO_attr; auto. cbn [pos set_st]. eapply at_no_ws; eauto.
    + apply A.
    + unfold pstep. cbn [tok finish s2]. unfold token_text. cbn [tok_off pos finish s2]. rewrite SL. cbn [bind].
      rewrite attr_insert_new by auto. reflexivity.
  - cbn [pos s2 finish]. eapply at_adv; eauto.
Qed.

(** The value behind the name. *)
Lemma value_tokens s2 p2 n off m hv b s : st s2 = AfterAttributeName -> at_ (pos s2) (render_value hv ++ b :: s) ->
  good_value hv -> stops b -> (b = 47%N -> forall gap v, hv <> Bare gap v) ->
  n_attrs (cur p2) = m ++ [(n, Tree.mkAttr None off)] -> attr_get n m = None -> pending p2 = Some n ->
  forall gap v, value_text hv = Some v -> render_value hv = gap ++ bs "=" ++ v ->
  exists s4 p4 s5 p5, run s2 p2 s4 p4 /\ tok s4 = DelimiterAssign /\ tok_off s4 = pos s2 + length gap /\ pos s4 = pos s2 + length gap + 1 /\
    run s4 p4 s5 p5 /\ tok s5 = AttributeValue /\ tok_off s5 = pos s4 /\ pos s5 = pos s4 + length v /\
    at_ (pos s4) (v ++ b :: s) /\ at_ (pos s5) (b :: s) /\ value_from t (pos s4) (pos s5).
Proof.
  intros S2 A2 GV SB NB EA GN PN gap v VT RV.
  assert (X : blank gap /\ Utf8 v /\ 0 < length v /\
     (forall sc, st sc = BeforeAttributeValue -> at_ (pos sc) (v ++ b :: s) ->
        (plain_value t (pos sc) (pos sc + length v) \/ quoted_value t (pos sc) (pos sc + length v)) /\
        exists y, outcome U t true cs sc (finish (set_space false (set_last_type y sc)) (pos sc) AttributeValue None (pos sc + length v) WithinTag))).
  { destruct hv as [|gap0 v0|gap0 q v0]; cbn [value_text render_value good_value] in *; [discriminate| |];
      apply Some_inj in VT; rewrite <- VT in *; apply app_inv_tail in RV; subst gap0.
    - destruct GV as (G5 & G6 & G7). split; [auto|]. split; [eapply made_of_utf8; eauto|]. split; [destruct v0; [tauto|cbn; lia]|].
      intros sc0 S0 A0. assert (PV : plain_value t (pos sc0) (pos sc0 + length v0)).
      { eapply at_plain; eauto. destruct SB as [SB|[SB|SB]]; auto. exfalso. eapply NB; eauto. }
      split; [auto|]. exists (new_type sc0 (sub t (pos sc0) (pos sc0 + length v0))).
      apply O_value_plain; auto. destruct (bare_first _ G7 G6) as (x & y & E & Wx & _). rewrite E in A0. eapply at_no_ws; eauto.
    - destruct GV as (G5 & G6 & G7 & G8). split; [auto|].
      split; [apply u_app; [apply u_one; lia|]; apply u_app; auto; apply u_one; lia|].
      split; [rewrite !app_length; cbn [length]; lia|]. intros sc0 S0 A0. rewrite <- !app_assoc in A0.
      pose proof (at_quoted _ _ _ _ _ A0 G6 G8) as Q. split; [auto|].
      set (e := pos sc0 + length ([q] ++ v0 ++ [q])) in *.
      exists (new_type sc0 (if e - 1 <? pos sc0 + 1 then sub t (e - 1) (pos sc0 + 1) else sub t (pos sc0 + 1) (e - 1))).
      apply O_value_quoted; auto. intros _.
      assert (Q1 : Utf8 [q]) by (apply u_one; lia).
      pose proof (at_adv _ HU _ _ _ A0 Q1) as A5. pose proof (at_adv _ HU _ _ _ A5 G7) as A6.
      split; [apply Bd_boundary, A5|].
      replace (e - 1) with (pos sc0 + length [q] + length v0); [apply Bd_boundary, A6|].
      unfold e. rewrite !app_length. cbn [length]. lia. }
  destruct X as (BG & UV & LV & SV). rewrite RV, <- !app_assoc in A2.
  assert (EXg : exists s3, run s2 p2 s3 p2 /\ pos s3 = pos s2 + length gap /\ st s3 = AfterAttributeName).
  { destruct gap as [|g gap].
    - exists s2. split; [apply run_nil|]. cbn. auto.
    - pose proof (at_ws _ _ _ _ A2 BG ltac:(discriminate)) as K. specialize (K ltac:(intros x y E; inversion E; reflexivity)).
      exists (finish (set_space true s2) (pos s2) Whitespace None (pos s2 + length (g :: gap)) AfterAttributeName).
      split; [|cbn; auto]. pose proof (at_len _ _ _ A2) as L. rewrite !app_length in L. cbn [length] in L.
      apply one; cbn [tok finish pos length]; try discriminate; try lia; [exact HU|apply O_attr_ws; auto|apply A2|reflexivity]. }
  destruct EXg as (s3 & R3 & P3 & S3).
  apply at_adv in A2; [|auto|apply blank_utf8; auto]. rewrite <- P3 in A2.
  set (s4 := finish s3 (pos s3) DelimiterAssign None (pos s3 + 1) BeforeAttributeValue).
  set (p4 := mkP (set_attrs (m ++ [(n, Tree.mkAttr (Some []) off)]) (cur p2)) (parents p2) (end_tag_start p2) (end_tag_name p2) (pending p2)).
  pose proof (at_len _ _ _ A2) as L. rewrite !app_length in L. cbn [length bs] in L.
  assert (R4 : run s3 p2 s4 p4).
  { apply one; cbn [tok finish pos s4]; try discriminate; try lia; [exact HU| | |].
    - apply O_assign; auto. eapply at_first. exact A2.
    - apply A2.
    - unfold pstep. cbn [tok finish s4]. rewrite PN. unfold set_attr_value. rewrite EA, attr_get_last by auto. cbn [unwrap bind a_off].
      rewrite attr_insert_last by auto. reflexivity. }
  assert (A4 := A2). apply (at_adv _ HU _ (bs "=")) in A4; [|apply u_one; reflexivity].
  change (pos s3 + length (bs "=")) with (pos s4) in A4.
  destruct (SV s4 eq_refl A4) as (VF & y & O).
  set (s5 := finish (set_space false (set_last_type y s4)) (pos s4) AttributeValue None (pos s4 + length v) WithinTag) in *.
  pose proof (at_slice _ HU _ _ _ A4 UV) as SL4.
  set (p5 := mkP (set_attrs (m ++ [(n, Tree.mkAttr (Some v) off)]) (cur p2)) (parents p2) (end_tag_start p2) (end_tag_name p2) None).
  assert (R5 : run s4 p4 s5 p5).
  { pose proof (at_len _ _ _ A4) as L4. rewrite app_length in L4. apply one; auto; cbn [tok finish pos s5]; try discriminate; try lia.
    - apply A4.
    - unfold pstep. cbn [tok finish s5]. unfold token_text. cbn [tok_off pos finish s5]. rewrite SL4.
      cbn [bind pending p4]. rewrite PN. unfold set_attr_value. cbn [cur p4 n_attrs set_attrs].
      rewrite attr_get_last by auto. cbn [unwrap bind a_off]. rewrite attr_insert_last by auto. reflexivity. }
  exists s4, p4, s5, p5. split; [eapply run_trans; eauto|]. split; [reflexivity|]. split; [exact P3|]. split; [cbn [pos s4 finish]; lia|].
  split; [exact R5|]. split; [reflexivity|]. split; [reflexivity|]. split; [reflexivity|]. split; [exact A4|]. split.
  - apply at_adv in A4; auto.
  - cbn [pos s5 finish]. destruct VF; [left|right; left]; auto.
Qed.
End Runs.

(** ** What stands behind the name *)
Lemma next_is_eq_dec t e : next_is_eq t e \/ ~ next_is_eq t e.
Proof.
  remember (length t - e) as k eqn:K. revert e K. induction k as [|k IH]; intros e K.
  - right. intros (j & J & _ & E). apply nth_error_lt in E. lia.
  - destruct (nth_error t e) as [b|] eqn:N; [|apply nth_error_None in N; lia].
    destruct (N.eq_dec b EQ) as [->|NB]; [left; exists e; split; [lia|]; split; [intros; lia|auto]|].
    destruct (is_ws b) eqn:W.
    + destruct (IH (e + 1) ltac:(lia)) as [(j & J & P & E)|H].
      * left. exists j. split; [lia|]. split; [|auto]. intros i I. destruct (Nat.eq_dec i e) as [->|]; [exists b; auto|]. apply P. lia.
      * right. intros (j & J & P & E). apply H. exists j. assert (j <> e) by (intros ->; congruence). split; [lia|]. split; [|auto]. intros i I. apply P. lia.
    + right. intros (j & J & P & E). destruct (Nat.eq_dec j e) as [->|]; [congruence|]. destruct (P e ltac:(lia)) as (b' & B1 & B2). congruence.
Qed.
Lemma tail_shape as2 pad b s : Forall good_attr as2 -> blank pad -> b = 62%N \/ b = 47%N ->
  exists w x r, render_attrs as2 ++ pad ++ b :: s = w ++ x :: r /\ blank w /\ is_ws x = false /\ x <> 61%N /\ (w = [] -> stops x).
Proof.
  intros GA BP B. destruct GA as [|a as2 (B1 & B2 & B3 & B4 & _) _].
  - exists pad, b, s. split; [reflexivity|]. split; [auto|]. destruct B as [->| ->]; (split; [reflexivity|]; split; [discriminate|]; intros _; right; auto).
  - destruct (attr_first _ B4 B3) as (x & r & E & Wx & Ex). exists (ha_space a), x.
    eexists. split; [cbn [render_attrs flat_map]; unfold render_attr at 1; rewrite E, <- !app_assoc; reflexivity|]. split; [auto|]. split; [auto|]. split; [auto|tauto].
Qed.
Lemma shape_next t q w x r : RenderFacts.at_ t q (w ++ x :: r) -> blank w -> is_ws x = false -> next_is_eq t q <-> x = 61%N.
Proof.
  intros A W X. rewrite blank_ws in W. assert (N : nth_error t (q + length w) = Some x).
  { rewrite (at_nth _ _ _ _ A), nth_error_app2, Nat.sub_diag by lia. reflexivity. }
  assert (M : forall i, q <= i < q + length w -> exists b, nth_error t i = Some b /\ is_ws b = true).
  { intros i I. replace i with (q + (i - q)) by lia. rewrite (at_nth _ _ _ _ A), nth_error_app1 by lia.
    destruct (nth_error w (i - q)) as [b|] eqn:E; [|apply nth_error_None in E; lia]. exists b. split; auto. apply W. eapply nth_error_In; eauto. }
  split.
  - intros (j & J & P & E). assert (j = q + length w); [|subst j; unfold EQ in E; congruence].
    destruct (Nat.lt_trichotomy j (q + length w)) as [L|[L|L]]; [|auto|].
    + destruct (M j ltac:(lia)) as (b & E2 & Wb). rewrite E in E2. apply Some_inj in E2. subst b. discriminate.
    + destruct (P (q + length w) ltac:(lia)) as (b & E2 & Wb). congruence.
  - intros ->. exists (q + length w). split; [lia|]. auto.
Qed.

(** ** The tag in its document *)
Lemma attr_get_name x m a : attr_get x m = Some a -> In x (map fst m).
Proof.
  induction m as [|[y b] m IH]; cbn [attr_get map fst In]; [discriminate|]. destruct (beq x y) eqn:B; [apply beq_eq in B; auto|auto].
Qed.
Lemma names_from l : forall o, map fst (attrs_from o l) = map ha_name l.
Proof. induction l; intros o; cbn; [|f_equal]; auto. Qed.
Section Doc.
Variables (U : unicode) (d : textdoc) (cs : bool) (void : list str) (c : ctx) (h : html) (attrs : list hattr) (pad : str) (l : list token).
Hypothesis G : good_doc U cs void (fill c h).
Hypothesis HD : textdoc_ok d.
Hypothesis ET : d_text d = render_all (fill c h).
Hypothesis TA : tag_attrs h = Some (attrs, pad).
Hypothesis HT : doc_tokens U (d_text d) cs = Ok l.
Notation t := (d_text d).
Notation at_ := (RenderFacts.at_ (d_text d)).
Notation roots := (nodes_all 0 (fill c h)).

Lemma tag_shape : exists b s, (b = 62%N \/ b = 47%N) /\ good_name U (h_name h) /\ good_attrs attrs /\ blank pad /\ with_attrs attrs pad h = h /\
  forall attrs' pad', render (with_attrs attrs' pad' h) ++ back c = bs "<" ++ h_name h ++ render_attrs attrs' ++ pad' ++ b :: s.
Proof.
  pose proof (good_hole _ _ _ _ _ G) as GH.
  destruct h as [z|z|w z|name as0 pad0 body close pad2|name as0 pad0 z pad2|name as0 pad0|name as0 pad0]; try discriminate TA;
    cbn [tag_attrs] in TA; apply Some_inj in TA; injection TA as -> ->; inversion GH; subst; cbn [h_name with_attrs render].
  - eexists 62%N, _. split; [auto|]. repeat (split; [solve [auto]|]). intros attrs' pad'. unfold start_tag. rewrite <- !app_assoc. reflexivity.
  - eexists 62%N, _. split; [auto|]. repeat (split; [solve [auto]|]). intros attrs' pad'. unfold start_tag. rewrite <- !app_assoc. reflexivity.
  - eexists 47%N, _. split; [auto|]. repeat (split; [solve [auto]|]). intros attrs' pad'. unfold start_tag. rewrite <- !app_assoc. reflexivity.
Qed.
Lemma to_tag : exists sc p, run U t cs void (scanner_new 0 WithinContent) (mkP (node_new 0 (length t)) [] None None None) sc p /\
  st sc = WithinContent /\ pos sc = hole c /\ at_ (hole c) (render h ++ back c).
Proof.
  destruct (fill_levels _ _ _ _ _ G) as [GL GF]. pose proof (do_utf8 _ HD) as HU.
  pose proof (at_start t HU) as A. assert (E := fill_text c h). rewrite <- ET in E. rewrite E in A at 2.
  assert (S1 : exists sc0 p0, run U t cs void (scanner_new 0 WithinContent) (mkP (node_new 0 (length t)) [] None None None) sc0 p0 /\
    st sc0 = WithinContent /\ pos sc0 = length (opens (levels c)) /\ at_ (pos sc0) (render_all (front c) ++ render h ++ back c)).
  { destruct (levels c) as [|v0 vs0] eqn:EL.
    - eexists _, _. split; [apply run_nil|]. split; [reflexivity|]. split; [reflexivity|]. exact A.
    - destruct (@exists_last _ (v0 :: vs0)) as (vs & v & EV); [discriminate|]. rewrite EV in *.
      destruct (opens_run U t cs void HU vs v (scanner_new 0 WithinContent) (mkP (node_new 0 (length t)) [] None None None) _ GL eq_refl A)
        as (s0 & q0 & s1 & q1 & R0 & R1 & S1 & _ & P1 & _). cbn [scanner_new pos Nat.add] in P1.
      exists s1, q1. split; [eapply run_trans; eauto|]. split; [auto|]. split; [auto|]. rewrite P1. apply (at_adv _ HU 0) in A; [exact A|].
      clear - GL HU. induction GL; [apply u_nil|]. unfold opens. cbn [flat_map]. apply u_app; auto. eapply level_utf8; eauto. }
  destruct S1 as (sc0 & p0 & R0 & S0 & P0 & A0).
  destruct (all_run U t cs void HU (front c) sc0 p0 _ GF S0 A0) as (sc1 & p1 & R1 & S1 & P1 & _).
  { right. destruct tag_shape as (b & s & _ & _ & _ & _ & EW & ES). specialize (ES attrs pad). rewrite EW in ES. rewrite ES. cbn [bs app]. eauto. }
  exists sc1, p1. split; [eapply run_trans; eauto|]. split; [auto|].
  assert (EP : pos sc1 = hole c) by (rewrite hole_front, app_length; lia). split; [auto|].
  apply at_adv in A0; [|auto|eapply doc_utf8; eauto]. rewrite <- P1, EP in A0. exact A0.
Qed.

(** White space in the tag, and a name behind it. *)
Lemma space_here as1 w s : render h ++ back c = bs "<" ++ h_name h ++ render_attrs as1 ++ w ++ s -> good_attrs as1 -> blank w -> w <> [] ->
  (forall b r, s = b :: r -> is_ws b = false) ->
  let a := hole c + 1 + length (h_name h) + length (render_attrs as1) in
  at_ (a + length w) s /\
  (exists k, In k l /\ tk_type k = Whitespace /\ tk_off k = a /\ tk_end k = a + length w /\ (tk_state k = WithinTag \/ tk_state k = AfterAttributeName)) /\
  forall n b r, s = n ++ b :: r -> made_of attr_name_char n -> n <> [] -> stops b \/ b = 61%N -> ~ In n (map ha_name as1) ->
    exists k, In k l /\ tk_type k = AttributeName /\ tk_off k = a + length w /\ tk_end k = a + length w + length n.
Proof.
  intros ES GA BW NE NS a. destruct to_tag as (sc & p & R & S & P & A). destruct tag_shape as (_ & _ & _ & GN & _).
  pose proof (do_utf8 _ HD) as HU. rewrite ES in A. rewrite <- P in A.
  destruct w as [|e w]; [tauto|]. assert (We : is_ws e = true) by (rewrite blank_ws in BW; apply BW; cbn; auto).
  destruct (tag_opens U t cs void HU sc p (h_name h) as1 e (w ++ s)) as (sc1 & p1 & R1 & I1 & A1 & P1 & C1); auto.
  { left. auto. }
  assert (EA : pos sc1 = a) by (rewrite P1, P; reflexivity).
  destruct (space_token U t cs void HU sc1 p1 (e :: w) s I1 A1 BW NE NS) as (sc2 & R2 & A2 & I2 & H2 & P2 & T2 & O2).
  assert (RR : run U t cs void (scanner_new 0 WithinContent) (mkP (node_new 0 (length t)) [] None None None) sc2 p1) by (eapply run_trans; [exact R|eapply run_trans; eauto]).
  rewrite EA in *. split; [rewrite <- P2; exact A2|]. split.
  - exists (token_of sc2). split; [eapply (last_token U t cs void l HU HT); [exact RR|]; rewrite P2; cbn [length]; lia|]. cbn. rewrite T2, O2, P2. auto.
  - intros n b r E M NN ST NI. rewrite E in A2.
    destruct (name_token U t cs void HU sc2 p1 n b r I2 H2 A2 M NN ST) as (sc3 & p3 & R3 & A3 & S3 & P3 & T3 & O3 & _).
    { rewrite C1. cbn [n_attrs]. destruct (attr_get n (attrs_from (pos sc + 1 + length (h_name h)) as1)) eqn:Q; auto. exfalso. apply NI.
      apply attr_get_name in Q. rewrite names_from in Q. exact Q. }
    exists (token_of sc3). split; [eapply (last_token U t cs void l HU HT); [eapply run_trans; [exact RR|exact R3]|]; rewrite P3, P2; cbn [length]; lia|].
    cbn. rewrite T3, O3, P3, P2. auto.
Qed.

(** The value of an attribute. *)
Lemma value_here as1 w n hv b r gap v : render h ++ back c = bs "<" ++ h_name h ++ render_attrs as1 ++ w ++ n ++ render_value hv ++ b :: r ->
  good_attrs as1 -> good_attr (mkHAttr w n hv) -> ~ In n (map ha_name as1) -> stops b -> (b = 47%N -> forall gap v, hv <> Bare gap v) ->
  value_text hv = Some v -> render_value hv = gap ++ bs "=" ++ v ->
  let a := hole c + 1 + length (h_name h) + length (render_attrs as1) + length w + length n + length gap in
  exists k1 k2, In k1 l /\ tk_type k1 = DelimiterAssign /\ tk_off k1 = a /\ tk_end k1 = a + 1 /\
    In k2 l /\ tk_type k2 = AttributeValue /\ tk_off k2 = a + 1 /\ tk_end k2 = a + 1 + length v /\
    at_ (a + 1) (v ++ b :: r) /\ at_ (a + 1 + length v) (b :: r) /\ value_from t (a + 1) (a + 1 + length v).
Proof.
  intros ES GA (B1 & B2 & B3 & B4 & B5) NI SB NB VT RV a. cbn [ha_space ha_name ha_value] in B1, B2, B3, B4, B5.
  destruct to_tag as (sc & p & R & S & P & A). destruct tag_shape as (_ & _ & _ & GN & _).
  pose proof (do_utf8 _ HD) as HU. rewrite ES in A. rewrite <- P in A.
  destruct w as [|e w]; [tauto|]. assert (We : is_ws e = true) by (rewrite blank_ws in B1; apply B1; cbn; auto).
  destruct (tag_opens U t cs void HU sc p (h_name h) as1 e (w ++ n ++ render_value hv ++ b :: r)) as (sc1 & p1 & R1 & I1 & A1 & P1 & C1); auto.
  { left. auto. }
  destruct (attr_first _ B4 B3) as (c0 & q1 & E1 & E2 & _).
  destruct (space_token U t cs void HU sc1 p1 (e :: w) (n ++ render_value hv ++ b :: r) I1 A1 B1 B2) as (sc2 & R2 & A2 & I2 & H2 & P2 & T2 & O2).
  { intros b0 q0 E0. rewrite E1 in E0. cbn [app] in E0. injection E0 as <- _. auto. }
  assert (NG : attr_get n (n_attrs (cur p1)) = None).
  { rewrite C1. cbn [n_attrs]. destruct (attr_get n (attrs_from (pos sc + 1 + length (h_name h)) as1)) eqn:Q; auto. exfalso. apply NI.
    apply attr_get_name in Q. rewrite names_from in Q. exact Q. }
  assert (X : exists d0 s0, render_value hv ++ b :: r = d0 :: s0 /\ (stops d0 \/ d0 = 61%N)).
  { rewrite RV. destruct gap as [|g gap]; cbn [app bs]; eexists _, _; (split; [reflexivity|]); [right; reflexivity|]. left. left.
    assert (BG : blank (g :: gap)).
    { destruct hv as [|g0 v0|g0 q v0]; cbn [value_text render_value good_value] in *; [discriminate| |]; apply Some_inj in VT; rewrite <- VT in RV; apply app_inv_tail in RV; subst g0; apply B5. }
    rewrite blank_ws in BG. apply BG. cbn; auto. }
  destruct X as (d0 & s0 & X1 & X2). assert (A2' := A2). rewrite X1 in A2'.
  destruct (name_token U t cs void HU sc2 p1 n d0 s0 I2 H2 A2' B4 B3 X2 NG) as (sc3 & p3 & R3 & A3 & S3 & P3 & T3 & O3 & EP3).
  rewrite <- X1 in A3.
  destruct (value_tokens U t cs void HU sc3 p3 n (pos sc2) (n_attrs (cur p1)) hv b r S3 A3 B5 SB NB) with (gap := gap) (v := v)
    as (s4 & p4 & s5 & p5 & R4 & T4 & O4 & P4 & R5 & T5 & O5 & P5 & A5 & A6 & VF); auto.
  { rewrite EP3. reflexivity. }
  { rewrite EP3. reflexivity. }
  assert (RR : run U t cs void (scanner_new 0 WithinContent) (mkP (node_new 0 (length t)) [] None None None) s4 p4).
  { eapply run_trans; [exact R|]. eapply run_trans; [exact R1|]. eapply run_trans; [exact R2|]. eapply run_trans; eauto. }
  assert (EA : a + 1 = pos s4) by (rewrite P4, P3, P2, P1, P; unfold a; reflexivity).
  assert (EB : a + 1 + length v = pos s5) by (rewrite P5, <- EA; reflexivity).
  assert (EC : a = tok_off s4) by (rewrite O4; lia).
  exists (token_of s4), (token_of s5). cbn [token_of tk_type tk_off tk_end]. rewrite EB, EA, EC, T4, T5, O5.
  split; [eapply (last_token U t cs void l HU HT); [exact RR|lia]|]. repeat (split; [reflexivity|]).
  split; [eapply (last_token U t cs void l HU HT); [eapply run_trans; [exact RR|exact R5]|lia]|]. repeat (split; [reflexivity|]). auto.
Qed.

(** The element of the tag is the one it is asked about. *)
Lemma node_here o n : hole c < o -> o <= hole c + 1 + length (h_name h) + length (render_attrs attrs) + length pad -> start_tag_at roots n o ->
  n_tag n = Some (h_name h) /\ attribute_names n = map ha_name attrs.
Proof.
  intros L1 L2 (I & S & M & _). pose proof (do_utf8 _ HD) as HU.
  assert (HP : parse U t cs void = Ok roots) by (rewrite ET; apply C21_round_trip; auto).
  assert (X : exists x, nodes_from (hole c) h = [x] /\ n_start x = hole c /\ n_tag x = Some (h_name h) /\ attribute_names x = map ha_name attrs /\
    hole c + 1 + length (h_name h) + length (render_attrs attrs) + length pad < hole c + length (render h) /\
    forall m, In m (flat_map preorder (n_children x)) -> hole c + 1 + length (h_name h) + length (render_attrs attrs) + length pad <= n_start m).
  { destruct h as [z|z|w z|name as0 pad0 body close pad2|name as0 pad0 z pad2|name as0 pad0|name as0 pad0]; try discriminate TA;
      cbn [tag_attrs] in TA; apply Some_inj in TA; injection TA as -> ->; eexists; (split; [reflexivity|]);
      unfold attribute_names; cbn [n_start n_tag n_attrs n_children h_name render]; rewrite names_from;
      repeat (split; [reflexivity|]); unfold start_tag; rewrite ?app_length; cbn [length bs]; (split; [lia|]);
      try (intros m []); intros m Im.
    change (nodes_with nodes_from ?a body) with (nodes_all a body) in Im. apply bounds_all in Im. lia. }
  destruct X as (x & X1 & X2 & X3 & X4 & X5 & X6). destruct (hole_node c h x 0 X1) as [I1 I2]. cbn [Nat.add] in I2.
  pose proof (M x I1 ltac:(lia)) as LE. destruct (span U d cs void roots HD HP n I) as (SP1 & _).
  destruct (I2 n (n_start n) I ltac:(lia) ltac:(lia)) as [[E1 E2]|[-> |E]].
  - assert (n = x) by (eapply (same_start U d cs void roots HD HP); auto; lia). subst n. auto.
  - auto.
  - apply X6 in E. lia.
Qed.

(** Other attributes for the element. *)
Lemma good_with attrs' pad' : good_attrs attrs' -> blank pad' ->
  (forall l a gap x, attrs' = l ++ [a] -> ha_value a = Bare gap x -> pad' = [] -> pad = [] /\ exists l0 a0, attrs = l0 ++ [a0] /\ ha_value a0 = Bare gap x) ->
  good_doc U cs void (fill c (with_attrs attrs' pad' h)).
Proof.
  intros GA BP LB. pose proof (good_hole _ _ _ _ _ G) as GH. apply good_swap with (h := h); auto.
  - destruct h; reflexivity.
  - destruct h as [z|z|w z|name as0 pad0 body close pad2|name as0 pad0 z pad2|name as0 pad0|name as0 pad0]; try discriminate TA;
      cbn [tag_attrs] in TA; apply Some_inj in TA; injection TA as -> ->; inversion GH; subst; cbn [with_attrs]; constructor; auto.
    intros E l' a gap v E1 E2. destruct (LB _ _ _ _ E1 E2 E) as [E3 (l0 & a0 & E4 & E5)]. match goal with X : pad = [] -> _ |- _ => eapply X; eauto end.
Qed.

(** The text with a piece of the tag replaced. *)
Lemma swapped x y z new attrs' pad' : render h ++ back c = x ++ y ++ z -> render (with_attrs attrs' pad' h) ++ back c = x ++ new ++ z ->
  Bd t (hole c + length x) -> Bd t (hole c + length x + length y) ->
  edited d [(range_at d (hole c + length x) (hole c + length x + length y), new)] = render_all (fill c (with_attrs attrs' pad' h)).
Proof.
  intros E1 E2 B1 B2. unfold edited. cbn [map fst snd]. destruct (range_text d _ _ HD B1 B2) as (_ & -> & ->).
  rewrite (replace_one ((opens (levels c) ++ render_all (front c)) ++ x) y z).
  - rewrite fill_text, <- !app_assoc. rewrite E2. reflexivity.
  - rewrite ET, fill_text, <- !app_assoc. rewrite E1. reflexivity.
  - rewrite hole_front, (app_length _ x). reflexivity.
  - rewrite hole_front, (app_length _ x). reflexivity.
Qed.

(** ** The proposals *)
Variables (md : bool) (parts : list completion_participant) (providers : list provider) (lang : str) (ents : list (str * str)) (settings : option completion_settings)
  (order : list (str * str) -> list (str * str)) (p : position) (items : list item).
Hypothesis PO : forall m, Permutation (order m) m.
Notation o := (offset_at d p).
Hypothesis C : do_complete U d cs md parts providers lang ents settings order roots p = Ok items.

Lemma name_item k i : In k l -> at_attribute_name k o -> hole c < o -> o <= hole c + 1 + length (h_name h) + length (render_attrs attrs) + length pad ->
  In i items -> plain (ci_label i) ->
  exists a e behind s v, ci_edit i = Some (range_at d a e, s) /\ ci_format i = Some FSnippet /\ expands s (ci_label i ++ render_value v) /\
    (tk_type k = AttributeName -> a = tk_off k /\ behind = tk_end k /\ o <= e <= tk_end k /\
       (e = tk_end k \/ exists c, nth_error t e = Some c /\ (c = LT \/ (128 <= c)%N))) /\
    (tk_type k = Whitespace -> a = o /\ behind = o /\ e = o) /\
    (next_is_eq t behind -> is_prefix (bs "data-") (ci_label i) = false -> v = NoValue) /\
    (~ next_is_eq t behind -> (forall s, settings = Some s -> cs_quotes s <> QNone) -> v = NoValue \/ v = Quoted [] 34%N [] \/ v = Quoted [] 39%N []) /\
    (ci_label i = bs "data-" \/ ~ In (ci_label i) (map ha_name attrs) \/ (tk_type k = AttributeName /\ sub t (tk_off k) (tk_end k) = ci_label i)).
Proof.
  intros K AK L1 L2 I PL.
  assert (HP : parse U t cs void = Ok roots) by (rewrite ET; apply C21_round_trip; auto).
  destruct (C69_attribute_edits U d cs void roots l md parts providers lang ents settings order p k items HD HP HT PO K AK C)
    as (n & a & e & behind & value & named & data & SA & EI & CA & CW & V1 & V2 & NM & DT).
  destruct (C42_attribute_names U d cs void roots l md parts providers lang ents settings order p k items HD HP HT PO K AK C)
    as (n' & SA' & LB & _).
  destruct (node_here _ _ L1 L2 SA') as [_ NN].
  assert (W : ci_label i = bs "data-" \/ ~ In (ci_label i) (map ha_name attrs) \/ (tk_type k = AttributeName /\ sub t (tk_off k) (tk_end k) = ci_label i)).
  { destruct (proj1 (LB (ci_label i)) (in_map _ _ _ I)) as [Q|[[_ Q]|(_ & Q & _)]]; rewrite ?NN in Q; tauto. }
  assert (CA' : tk_type k = AttributeName -> a = tk_off k /\ behind = tk_end k /\ o <= e <= tk_end k /\
       (e = tk_end k \/ exists c, nth_error t e = Some c /\ (c = LT \/ (128 <= c)%N))).
  { intros T. destruct (CA T) as (Q1 & Q2 & Q3 & _ & Q4). auto. }
  rewrite EI in I. apply in_app_or in I as [I|I].
  - destruct (NM i I) as (q & x & y & _ & _ & _ & EL & v & W1 & W2 & E1 & E2 & _). rewrite <- EL in E1.
    assert (QS : plain (ci_label i ++ []) /\ exists u, expands v (render_value u) /\ 
      (next_is_eq t behind -> u = NoValue) /\
      (~ next_is_eq t behind -> (forall s, settings = Some s -> cs_quotes s <> QNone) -> u = NoValue \/ u = Quoted [] 34%N [] \/ u = Quoted [] 39%N [])).
    { split; [rewrite app_nil_r; auto|].
      assert (VV : v = [] \/ v = value) by (destruct (a_set y) as [s0|]; [destruct (list_eq_dec N.eq_dec s0 (bs "v")); [left; apply W1; congruence|right; apply W2; congruence]|right; apply W2; discriminate]).
      destruct VV as [->|VV]; [exists NoValue; split; [constructor|]; auto|].
      destruct (next_is_eq_dec t behind) as [NE|NE].
      - rewrite (V1 NE) in VV. subst v. exists NoValue. split; [constructor|]. auto.
      - rewrite (V2 NE) in VV.
        assert (E34 : expands (bs "=""$1""") (render_value (Quoted [] 34%N []))).
        { apply ex_char; [discriminate|discriminate|]. apply ex_char; [discriminate|discriminate|]. apply (stop_expands 49%N [34%N] [34%N]); [lia| |].
          - intros b q0 Q. injection Q as <- _. lia.
          - apply ex_char; [discriminate|discriminate|constructor]. }
        assert (E39 : expands (bs "='$1'") (render_value (Quoted [] 39%N []))).
        { apply ex_char; [discriminate|discriminate|]. apply ex_char; [discriminate|discriminate|]. apply (stop_expands 49%N [39%N] [39%N]); [lia| |].
          - intros b q0 Q. injection Q as <- _. lia.
          - apply ex_char; [discriminate|discriminate|constructor]. }
        destruct settings as [s0|]; [destruct (cs_quotes s0) eqn:QS|].
        + subst v. exists (Bare [] []). split; [|split; [tauto|intros _ H; exfalso; apply (H s0); auto]].
          apply ex_char; [discriminate|discriminate|]. apply (stop_expands 49%N [] []); [lia|discriminate|constructor].
        + subst v. exists (Quoted [] 39%N []). split; [exact E39|]. split; [tauto|auto].
        + subst v. exists (Quoted [] 34%N []). split; [exact E34|]. split; [tauto|auto].
        + subst v. exists (Quoted [] 34%N []). split; [exact E34|]. split; [tauto|auto]. }
    destruct QS as (_ & u & U1 & U2 & U3). exists a, e, behind, (ci_label i ++ v), u. split; [exact E1|]. split; [exact E2|]. split; [apply plain_expands; auto|].
    split; [exact CA'|]. split; [exact CW|]. split; [auto|]. split; [exact U3|exact W].
  - destruct (DT i I) as (DP & w & W1 & W2 & EQI).
    assert (E1 : ci_edit i = Some (range_at d a e, w)) by (rewrite EQI; reflexivity).
    assert (E2 : ci_format i = Some FSnippet) by (rewrite EQI; reflexivity).
    exists a, e, behind, w, (Quoted [] 34%N []). split; [exact E1|]. split; [exact E2|]. split.
    + assert (T34 : forall n, (48 <= n <= 57)%N -> expands [36%N; n; 34%N] [34%N]).
      { intros n0 N0. apply (stop_expands n0 [34%N] [34%N]); auto. 
        - intros b q0 Q. injection Q as <- _. lia.
        - apply ex_char; [discriminate|discriminate|constructor]. }
      destruct (list_eq_dec N.eq_dec (ci_label i) (bs "data-")) as [Q|Q].
      * rewrite (W1 Q), Q. change (bs "data-$1=""$2""") with (bs "data-" ++ [36%N; 49%N; 61%N; 34%N; 36%N; 50%N; 34%N]).
        apply plain_expands; [split; vm_compute; intuition discriminate|]. apply (stop_expands 49%N _ _); [lia| |].
        -- intros b q0 Q0. injection Q0 as <- _. lia.
        -- apply ex_char; [discriminate|discriminate|]. apply ex_char; [discriminate|discriminate|]. apply (T34 50%N). lia.
      * rewrite (W2 Q). apply plain_expands; auto. apply ex_char; [discriminate|discriminate|]. apply ex_char; [discriminate|discriminate|]. apply (T34 49%N). lia.
    + split; [exact CA'|]. split; [exact CW|]. split; [congruence|]. split; [auto|exact W].
Qed.
End Doc.

(** ** The theorems *)
Lemma nodup_left {A} (x y : list A) : NoDup (x ++ y) -> NoDup x.
Proof. induction x as [|a x IH]; cbn [app]; intros N; [constructor|]. inversion N; subst. constructor; auto. rewrite in_app_iff in *. auto. Qed.
Definition some_quotes (settings : option completion_settings) : Prop := forall s, settings = Some s -> cs_quotes s <> QNone.
Definition fresh_value (v : hvalue) : Prop := v = NoValue \/ v = Quoted [] 34%N [] \/ v = Quoted [] 39%N [].
Lemma fresh_good v : fresh_value v -> good_value v.
Proof. intros [->|[->| ->]]; cbn; auto; (split; [intros b []|]; split; [auto|]; split; [apply u_nil|intros []]). Qed.
Lemma fresh_bare v gap x : fresh_value v -> v <> Bare gap x.
Proof. intros [->|[->| ->]]; discriminate. Qed.
Lemma name_bytes n b : made_of attr_name_char n -> In b n -> (b < 128)%N -> b <> LT.
Proof.
  intros (l & -> & M) I L ->. apply encode_byte in I; auto.
  - apply M in I as (_ & _ & Q & _). apply Q. vm_compute. auto.
  - apply forallb_forall. intros x X. apply M; auto.
Qed.
Lemma no_dup_swap (f : hattr -> str) as1 a as2 a' : NoDup (map f (as1 ++ a :: as2)) -> ~ In (f a') (map f (as1 ++ as2)) -> NoDup (map f (as1 ++ a' :: as2)).
Proof.
  rewrite !map_app. cbn [map]. intros N I. apply NoDup_remove_1 in N. apply NoDup_Add with (a := f a') (l := map f as1 ++ map f as2); [apply Add_app|]. auto.
Qed.

(** C71: accepting a proposal with the cursor in the name of an attribute gives the document with that name
    replaced, and with an empty value between quotes unless there was a value or the attribute takes none. *)
Theorem C71_attribute_name : forall U d cs void c h as1 w typed v0 as2 pad md parts providers lang ents settings order roots p items i,
  good_doc U cs void (fill c h) -> textdoc_ok d -> d_text d = render_all (fill c h) -> parse U (d_text d) cs void = Ok roots ->
  tag_attrs h = Some (as1 ++ mkHAttr w typed v0 :: as2, pad) -> (forall m, Permutation (order m) m) ->
  let a := hole c + 1 + length (h_name h) + length (render_attrs as1) + length w in
  a < offset_at d p <= a + length typed ->
  (forall b, In b (skipn (offset_at d p - a) typed) -> (b < 128)%N) ->
  do_complete U d cs md parts providers lang ents settings order roots p = Ok items ->
  In i items -> ci_label i <> [] -> made_of attr_name_char (ci_label i) -> plain (ci_label i) ->
  (ci_label i = bs "data-" -> ~ In (bs "data-") (map ha_name (as1 ++ as2))) ->
  (v0 = NoValue -> some_quotes settings) -> (v0 <> NoValue -> is_prefix (bs "data-") (ci_label i) = false) ->
  exists v, (v0 <> NoValue -> v = v0) /\ (v0 = NoValue -> fresh_value v) /\
    let l' := fill c (with_attrs (as1 ++ mkHAttr w (ci_label i) v :: as2) pad h) in
    accepted d i (render_all l') /\ good_doc U cs void l' /\ parse U (render_all l') cs void = Ok (nodes_all 0 l').
Proof.
  intros U d cs void c h as1 w typed v0 as2 pad md parts providers lang ents settings order roots p items i G HD ET HP TA PO a LO AS C I NE ML PL DN QS VD.
  assert (HP' := C21_round_trip U cs void _ G). rewrite <- ET, HP in HP'. apply Ok_inj in HP'. subst roots.
  pose proof (do_utf8 _ HD) as HU. destruct (parse_tokens _ _ _ _ _ HU HP) as (l & HT).
  destruct (tag_shape U d cs void c h _ pad G ET TA) as (b & s & B & GN & GA & BP & EW & ES).
  assert (ES0 := ES (as1 ++ mkHAttr w typed v0 :: as2) pad). rewrite EW in ES0.
  destruct GA as [GA1 GA2]. assert (GA1' := GA1). apply Forall_app in GA1' as [GA3 GA4]. inversion GA4 as [|? ? Ga GA5]; subst.
  assert (Ga' := Ga). destruct Ga' as (W1 & W2 & T1 & T2 & GV). cbn [ha_space ha_name ha_value] in W1, W2, T1, T2, GV.
  set (z := render_value v0 ++ render_attrs as2 ++ pad ++ b :: s).
  assert (ER : forall n, render_attrs (as1 ++ mkHAttr w n v0 :: as2) ++ pad ++ b :: s = render_attrs as1 ++ w ++ n ++ z).
  { intros n. unfold render_attrs, z. rewrite flat_map_app. cbn [flat_map]. unfold render_attr at 2. cbn [ha_space ha_name ha_value]. rewrite <- !app_assoc. reflexivity. }
  rewrite ER in ES0.
  destruct (tail_shape as2 pad b s GA5 BP B) as (w3 & x & r & E3 & B3 & X1 & X2 & X3).
  assert (Z : exists e r', z = e :: r' /\ (stops e \/ e = 61%N)).
  { unfold z. destruct v0 as [|gap v|gap q v]; cbn [render_value].
    - rewrite E3. cbn [app]. destruct w3 as [|e w3]; cbn [app]; eexists _, _; (split; [reflexivity|]); left; [apply X3; auto|left; rewrite blank_ws in B3; apply B3; cbn; auto].
    - destruct GV as [Bg _]. destruct gap as [|e gap]; cbn [bs app]; eexists _, _; (split; [reflexivity|]); [right; reflexivity|left; left; rewrite blank_ws in Bg; apply Bg; cbn; auto].
    - destruct GV as [Bg _]. destruct gap as [|e gap]; cbn [bs app]; eexists _, _; (split; [reflexivity|]); [right; reflexivity|left; left; rewrite blank_ws in Bg; apply Bg; cbn; auto]. }
  destruct Z as (e0 & r0 & Z1 & Z2).
  assert (ND : ~ In typed (map ha_name (as1 ++ as2))).
  { rewrite map_app. rewrite map_app in GA2. cbn [map ha_name] in GA2. apply NoDup_remove_2 in GA2. exact GA2. }
  destruct (space_here U d cs void c h _ pad l G HD ET TA HT as1 w (typed ++ z) ES0) as (A1 & _ & KN); auto.
  { split; auto. rewrite map_app in GA2. apply nodup_left in GA2. exact GA2. }
  { intros b0 q0 E0. destruct (attr_first _ T2 T1) as (c0 & q1 & E1 & E2 & _). rewrite E1 in E0. cbn [app] in E0. injection E0 as <- _. auto. }
  fold a in A1, KN. pose proof (made_of_utf8 _ _ T2) as UT. pose proof (at_adv _ HU _ _ _ A1 UT) as A2.
  destruct (KN typed e0 r0) as (k & K1 & K2 & K3 & K4); auto.
  { rewrite Z1. reflexivity. }
  { intros Q. apply ND. rewrite map_app. apply in_or_app. auto. }
  assert (LN : length (render_attrs (as1 ++ mkHAttr w typed v0 :: as2)) = length (render_attrs as1) + length w + length typed + length (render_value v0) + length (render_attrs as2)).
  { unfold render_attrs. rewrite flat_map_app. cbn [flat_map]. rewrite !app_length. unfold render_attr at 2. cbn [ha_space ha_name ha_value]. rewrite !app_length. lia. }
  destruct (name_item U d cs void c h _ pad l G HD ET TA HT md parts providers lang ents settings order p items PO C k i K1) as
    (a' & e & behind & sn & v & I1 & I2 & I3 & I4 & _ & I5 & I6 & I7); auto.
  { split; [rewrite K3, K4; lia|auto]. }
  { unfold a in LO. lia. }
  { rewrite LN. unfold a in LO. lia. }
  destruct (I4 K2) as (-> & -> & LE & EE). rewrite K3, K4 in *.
  assert (e = a + length typed).
  { destruct EE as [EE|(b0 & EE & BB)]; auto. destruct (Nat.eq_dec e (a + length typed)) as [|NEQ]; auto. exfalso.
    replace e with (a + (e - a)) in EE by lia. rewrite (at_nth _ _ _ _ A1), nth_error_app1 in EE by lia.
    assert (IB : In b0 (skipn (offset_at d p - a) typed)).
    { apply nth_error_In with (n := e - offset_at d p). rewrite skipn_nth_error. rewrite <- EE. f_equal. lia. }
    pose proof (AS _ IB) as LB. destruct BB as [->|BB]; [|lia]. eapply name_bytes; [exact T2|eapply nth_error_In; eauto|auto|reflexivity]. }
  subst e.
  assert (NX : next_is_eq (d_text d) (a + length typed) <-> v0 <> NoValue).
  { unfold z in A2. destruct v0 as [|gap v1|gap q v1]; cbn [render_value] in A2.
    - cbn [app] in A2. rewrite E3 in A2. rewrite (shape_next _ _ _ _ _ A2 B3 X1). tauto.
    - destruct GV as [Bg _]. rewrite <- !app_assoc in A2. cbn [bs app] in A2. rewrite (shape_next _ _ _ _ _ A2 Bg eq_refl). split; [discriminate|reflexivity].
    - destruct GV as [Bg _]. rewrite <- !app_assoc in A2. cbn [bs app] in A2. rewrite (shape_next _ _ _ _ _ A2 Bg eq_refl). split; [discriminate|reflexivity]. }
  assert (NI : ~ In (ci_label i) (map ha_name (as1 ++ as2))).
  { destruct I7 as [Q|[Q|[_ Q]]].
    - rewrite Q. auto.
    - intros J. apply Q. rewrite map_app in *. cbn [map]. apply in_app_or in J as [J|J]; apply in_or_app; cbn; auto.
    - rewrite <- (at_sub _ _ _ _ A1) in ND. rewrite Q in ND. exact ND. }
  set (v' := match v0 with NoValue => v | _ => v0 end).
  assert (V1 : v0 <> NoValue -> v' = v0) by (unfold v'; destruct v0; tauto).
  assert (V2 : v0 = NoValue -> fresh_value v').
  { intros E0. unfold v'. rewrite E0. apply I6; [rewrite NX; tauto|apply QS; auto]. }
  exists v'. split; [exact V1|]. split; [exact V2|]. cbn zeta.
  assert (GG : good_doc U cs void (fill c (with_attrs (as1 ++ mkHAttr w (ci_label i) v' :: as2) pad h))).
  { eapply good_with; eauto.
    - split; [|apply no_dup_swap with (a := mkHAttr w typed v0); auto]. apply Forall_app. split; auto. constructor; auto. split; auto. cbn [ha_space ha_name ha_value]. repeat (split; [solve [auto]|]).
      destruct v0; [apply fresh_good; auto|exact GV|exact GV].
    - intros l0 a0 gap x0 E0 E1 E2. split; [auto|]. destruct as2 as [|a2 as2] using rev_ind.
      + apply app_inj_tail in E0 as [<- <-]. cbn [ha_value] in E1. eexists _, _. split; [reflexivity|]. cbn [ha_value].
        destruct v0; [|exact E1|exact E1]. exfalso. eapply fresh_bare; [apply V2; auto|]. exact E1.
      + rewrite app_comm_cons, app_assoc in E0. apply app_inj_tail in E0 as [<- <-]. eexists _, _. split; [rewrite app_comm_cons, app_assoc; reflexivity|auto]. }
  split; [|split; [exact GG|apply C21_round_trip; exact GG]].
  exists (range_at d a (a + length typed)), sn, (ci_label i ++ render_value v). split; [exact I1|]. split; [auto|]. split; [congruence|].
  assert (EA : a = hole c + length (bs "<" ++ h_name h ++ render_attrs as1 ++ w)) by (unfold a; rewrite !app_length; cbn [length bs]; lia).
  symmetry. rewrite EA. apply (swapped d c h HD ET) with (z := z).
  - rewrite ES0, <- !app_assoc. reflexivity.
  - rewrite ES. unfold render_attrs at 1. rewrite flat_map_app. cbn [flat_map]. unfold render_attr at 2. cbn [ha_space ha_name ha_value].
    fold (render_attrs as1). fold (render_attrs as2). unfold z. rewrite <- !app_assoc. do 5 f_equal.
    destruct v0; [reflexivity| |]; (assert (v = NoValue) by (apply I5; [apply NX; discriminate|apply VD; discriminate])); subst v; reflexivity.
  - rewrite <- EA. apply A1.
  - rewrite <- EA. apply A2.
Qed.
Print Assumptions C71_attribute_name.

(** A place in the white space of a start tag: [as1] and [w1] stand before it in the tag, [as2] and [pad'] behind
    it.  It is not right before a name. *)
Inductive gap_at (attrs : list hattr) (pad : str) : list hattr -> str -> list hattr -> str -> Prop :=
| gap_end w1 w2 : pad = w1 ++ w2 -> gap_at attrs pad attrs w1 [] w2
| gap_mid as1 w1 w2 n v as2 : attrs = as1 ++ mkHAttr (w1 ++ w2) n v :: as2 -> w2 <> [] -> gap_at attrs pad as1 w1 (mkHAttr w2 n v :: as2) pad.

(** Accepting a proposal with the cursor in the white space gives the document with one more attribute. *)
Theorem C71_attribute_space : forall U d cs void c h attrs pad as1 w1 as2 pad' md parts providers lang ents settings order roots p items i,
  good_doc U cs void (fill c h) -> textdoc_ok d -> d_text d = render_all (fill c h) -> parse U (d_text d) cs void = Ok roots ->
  tag_attrs h = Some (attrs, pad) -> gap_at attrs pad as1 w1 as2 pad' -> (forall m, Permutation (order m) m) ->
  w1 <> [] -> offset_at d p = hole c + 1 + length (h_name h) + length (render_attrs as1) + length w1 ->
  do_complete U d cs md parts providers lang ents settings order roots p = Ok items ->
  In i items -> ci_label i <> [] -> made_of attr_name_char (ci_label i) -> plain (ci_label i) ->
  (ci_label i = bs "data-" -> ~ In (bs "data-") (map ha_name (as1 ++ as2))) -> some_quotes settings ->
  exists v, fresh_value v /\
    let l' := fill c (with_attrs (as1 ++ mkHAttr w1 (ci_label i) v :: as2) pad' h) in
    accepted d i (render_all l') /\ good_doc U cs void l' /\ parse U (render_all l') cs void = Ok (nodes_all 0 l').
Proof.
  intros U d cs void c h attrs pad as1 w1 as2 pad' md parts providers lang ents settings order roots p items i G HD ET HP TA GP PO NW LO C I NE ML PL DN QS.
  assert (HP' := C21_round_trip U cs void _ G). rewrite <- ET, HP in HP'. apply Ok_inj in HP'. subst roots.
  pose proof (do_utf8 _ HD) as HU. destruct (parse_tokens _ _ _ _ _ HU HP) as (l & HT).
  destruct (tag_shape U d cs void c h _ pad G ET TA) as (b & s & B & GN & GA & BP & EW & ES).
  assert (ES0 := ES attrs pad). rewrite EW in ES0. destruct GA as [GA1 GA2].
  set (a := hole c + 1 + length (h_name h) + length (render_attrs as1)) in *.
  assert (X : exists w2 x r, render h ++ back c = bs "<" ++ h_name h ++ render_attrs as1 ++ (w1 ++ w2) ++ x :: r /\ blank (w1 ++ w2) /\ is_ws x = false /\ x <> 61%N /\
    w2 ++ x :: r = render_attrs as2 ++ pad' ++ b :: s /\ blank pad' /\ map ha_name attrs = map ha_name (as1 ++ as2) /\ Forall good_attr as1 /\ Forall good_attr as2 /\
    length (render_attrs as1) + length w1 <= length (render_attrs attrs) + length pad /\
    (forall l0 a0 gap x0, as1 ++ as2 = l0 ++ [a0] -> ha_value a0 = Bare gap x0 -> as2 <> [] -> pad' = [] -> pad = [] /\ exists l1 a1, attrs = l1 ++ [a1] /\ ha_value a1 = Bare gap x0)).
  { destruct GP as [w1 w2 ->|as1 w1 w2 n v as2 -> N2].
    - exists w2, b, s. split; [rewrite ES0, <- !app_assoc; reflexivity|]. split; [auto|]. split; [destruct B as [->| ->]; reflexivity|]. split; [destruct B as [->| ->]; discriminate|].
      split; [reflexivity|]. split; [intros y Y; apply BP; apply in_or_app; auto|]. rewrite app_nil_r. split; [auto|]. split; [auto|]. split; [constructor|]. split; [rewrite app_length; lia|]. tauto.
    - apply Forall_app in GA1 as [GA3 GA4]. inversion GA4 as [|? ? Ga GA5]; subst. assert (Ga' := Ga). destruct Ga' as (B1 & B2 & B3 & B4 & B5). cbn [ha_space ha_name ha_value] in B1, B2, B3, B4, B5.
      destruct (attr_first _ B4 B3) as (x & n' & E & Wx & Ex). exists w2, x, (n' ++ render_value v ++ render_attrs as2 ++ pad ++ b :: s).
      split. { rewrite ES0. unfold render_attrs at 1. rewrite flat_map_app. cbn [flat_map]. unfold render_attr at 2. cbn [ha_space ha_name ha_value]. rewrite E, <- !app_assoc. reflexivity. }
      split; [auto|]. split; [auto|]. split; [auto|]. split. { unfold render_attrs at 2. cbn [flat_map]. unfold render_attr at 1. cbn [ha_space ha_name ha_value]. rewrite E, <- !app_assoc. reflexivity. }
      split; [auto|]. split; [rewrite !map_app; reflexivity|]. split; [auto|]. split.
      { constructor; auto. split; [|cbn [ha_space ha_name ha_value]; auto]. cbn [ha_space]. intros y Y. apply B1. apply in_or_app. auto. }
      split. { unfold render_attrs. rewrite flat_map_app, app_length. cbn [flat_map]. rewrite app_length. unfold render_attr at 3. cbn [ha_space]. rewrite !app_length. lia. }
      intros l0 a0 gap x0 E0 E1 _ E2. split; [auto|]. destruct as2 as [|a2 as2] using rev_ind.
      + apply app_inj_tail in E0 as [<- <-]. cbn [ha_value] in E1. eexists _, _. split; [reflexivity|exact E1].
      + rewrite app_comm_cons, app_assoc in E0. apply app_inj_tail in E0 as [<- <-]. eexists _, _. split; [rewrite app_comm_cons, app_assoc; reflexivity|auto]. }
  destruct X as (w2 & x & r & E0 & BW & X1 & X2 & E2 & BP' & EN & G1 & G2 & LL & LB).
  assert (GD : good_attrs as1) by (split; [auto|]; rewrite EN, map_app in GA2; apply nodup_left in GA2; exact GA2).
  assert (BW1 : blank w1) by (intros y Y; apply BW; apply in_or_app; auto).
  assert (BW2 : blank w2) by (intros y Y; apply BW; apply in_or_app; auto).
  destruct (space_here U d cs void c h _ pad l G HD ET TA HT as1 (w1 ++ w2) (x :: r) E0 GD BW) as (A1 & (k & K1 & K2 & K3 & K4 & K5) & _).
  { destruct w1; [tauto|discriminate]. }
  { intros b0 q0 Q. injection Q as <- _. auto. }
  fold a in A1, K3, K4. rewrite app_length in A1, K4.
  destruct (to_tag U d cs void c h _ pad G HD ET TA) as (_ & _ & _ & _ & _ & AT). rewrite E0 in AT.
  assert (A2 : RenderFacts.at_ (d_text d) (offset_at d p) (w2 ++ x :: r)).
  { rewrite LO. replace (bs "<" ++ h_name h ++ render_attrs as1 ++ (w1 ++ w2) ++ x :: r) with ((bs "<" ++ h_name h ++ render_attrs as1 ++ w1) ++ w2 ++ x :: r) in AT by (rewrite <- !app_assoc; reflexivity).
    apply at_adv in AT; [|auto|].
    - replace (a + length w1) with (hole c + length (bs "<" ++ h_name h ++ render_attrs as1 ++ w1)); [exact AT|]. unfold a. rewrite !app_length. cbn [length bs]. lia.
    - apply u_app; [apply u_one; reflexivity|]. apply u_app; [apply (good_name_utf8 _ _ GN)|]. apply u_app; [apply attrs_utf8; auto|apply blank_utf8; auto]. }
  assert (L1 : 0 < length w1) by (destruct w1; [tauto|cbn; lia]).
  destruct (name_item U d cs void c h _ pad l G HD ET TA HT md parts providers lang ents settings order p items PO C k i K1) as
    (a' & e & behind & sn & v & I1 & I2 & I3 & _ & I4 & _ & I6 & I7); auto.
  { split; [rewrite K3, K4; lia|auto]. }
  { unfold a in LO. lia. }
  { unfold a in LO. lia. }
  destruct (I4 K2) as (-> & -> & ->).
  assert (FV : fresh_value v) by (apply I6; [rewrite (shape_next _ _ _ _ _ A2 BW2 X1); auto|exact QS]).
  assert (NI : ~ In (ci_label i) (map ha_name (as1 ++ as2))).
  { destruct I7 as [Q|[Q|[Q _]]]; [rewrite Q; auto|rewrite <- EN; exact Q|congruence]. }
  exists v. split; [exact FV|]. cbn zeta.
  assert (GG : good_doc U cs void (fill c (with_attrs (as1 ++ mkHAttr w1 (ci_label i) v :: as2) pad' h))).
  { apply (good_with U d cs void c h _ pad G ET TA); [|auto|].
    - split; [|]. 
      + apply Forall_app. split; auto. constructor; auto. split; auto. cbn [ha_space ha_name ha_value]. repeat (split; [solve [auto]|]). apply fresh_good; auto.
      + rewrite map_app. cbn [map ha_name]. rewrite EN, map_app in GA2. rewrite map_app in NI. apply NoDup_Add with (a := ci_label i) (l := map ha_name as1 ++ map ha_name as2); [apply Add_app|]. auto.
    - intros l0 a0 gap x0 Q1 Q2 Q3. destruct as2 as [|a2 as2] using rev_ind.
      + apply app_inj_tail in Q1 as [<- <-]. cbn [ha_value] in Q2. exfalso. eapply fresh_bare; eauto.
      + rewrite app_comm_cons, app_assoc in Q1. apply app_inj_tail in Q1 as [<- <-]. eapply (LB (as1 ++ as2)); eauto; [apply app_assoc|intros Q; apply app_eq_nil in Q as [_ Q]; discriminate]. }
  split; [|split; [exact GG|apply C21_round_trip; exact GG]].
  exists (range_at d (offset_at d p) (offset_at d p)), sn, (ci_label i ++ render_value v). split; [exact I1|]. split; [auto|]. split; [congruence|].
  assert (EA : offset_at d p = hole c + length (bs "<" ++ h_name h ++ render_attrs as1 ++ w1)) by (rewrite LO; unfold a; rewrite !app_length; cbn [length bs]; lia).
  assert (SW := swapped d c h HD ET (bs "<" ++ h_name h ++ render_attrs as1 ++ w1) [] (w2 ++ x :: r) (ci_label i ++ render_value v) (as1 ++ mkHAttr w1 (ci_label i) v :: as2) pad').
  rewrite <- EA in SW. cbn [length] in SW. rewrite Nat.add_0_r in SW. symmetry. apply SW.
  - rewrite E0, <- !app_assoc. reflexivity.
  - rewrite ES, E2. unfold render_attrs at 1. rewrite flat_map_app. cbn [flat_map]. unfold render_attr at 2. cbn [ha_space ha_name ha_value]. rewrite <- !app_assoc. reflexivity.
  - apply A2.
  - apply A2.
Qed.
Print Assumptions C71_attribute_space.

(** Where a value ends. *)
Lemma value_from_unique t o e e' : value_from t o e -> value_from t o e' -> e = e'.
Proof.
  assert (PP : forall e e', plain_value t o e -> plain_value t o e' -> e = e').
  { intros x x' (_ & _ & _ & n & _ & N & H) (_ & _ & _ & n' & _ & N' & H'). rewrite N in N'. subst n'.
    destruct H as [[-> H]|(-> & H1 & H2)], H' as [[-> H']|(-> & H1' & H2')]; auto; tauto. }
  assert (QQ : forall e e', quoted_value t o e -> quoted_value t o e' -> e <= e').
  { intros x x' (q & _ & A & L1 & L2 & N & H) (q' & _ & A' & L1' & L2' & N' & H'). rewrite A in A'. apply Some_inj in A'. subst q'.
    destruct (Nat.le_gt_cases x x') as [|L]; auto. destruct H' as [[H1 H2]|[H1 H2]]; [|lia]. exfalso. apply (N (x' - 1)); auto; lia. }
  assert (PQ : forall e e', plain_value t o e -> quoted_value t o e' -> False).
  { intros x x' (_ & _ & _ & n & N1 & N & _) (q & Q & A & _). rewrite (char_run_at_ascii t val_char o q) in N; auto; [lia| |]; destruct Q as [->| ->]; reflexivity. }
  intros [A|[A|[-> A]]] [B|[B|[-> B]]].
  - auto.
  - destruct (PQ _ _ A B).
  - destruct (B e). auto.
  - destruct (PQ _ _ B A).
  - apply Nat.le_antisymm; auto.
  - destruct (B e). auto.
  - destruct (A e'). auto.
  - destruct (A e'). auto.
  - auto.
Qed.
(** What becomes of a value when [x] is accepted for it. [o] is the place of the cursor: 0 for right behind the
    '='. *)
Inductive takes (x : str) : hvalue -> nat -> hvalue -> Prop :=
| takes_assign v gap y : value_text v = Some y -> render_value v = gap ++ bs "=" ++ y -> ~ In 34%N x -> takes x v 0 (Quoted gap 34%N x)
| takes_bare gap v o : 0 < o <= length v -> ~ In 34%N x -> takes x (Bare gap v) o (Quoted gap 34%N x)
| takes_word gap q v1 word v2 o : 1 + length v1 <= o <= 1 + length v1 + length word ->
    Utf8 v1 -> Utf8 word -> (forall b, In b word -> is_uspace b = false) ->
    (v1 = [] \/ exists u b, v1 = u ++ [b] /\ is_uspace b = true) -> (v2 = [] \/ exists b u, v2 = b :: u /\ is_uspace b = true) ->
    ~ In q x -> takes x (Quoted gap q (v1 ++ word ++ v2)) o (Quoted gap q (v1 ++ x ++ v2)).
(** The proposal is not one of a participant. *)
Definition own (parts : list completion_participant) (i : item) : Prop := forall q, In q parts -> forall a b c r, ~ In i (cp_value q a b c r).

(** Accepting a value replaces the value, or the word of it at the cursor, and gives it quotes if it had none. *)
Theorem C71_value : forall U d cs void c h as1 w n v as2 pad v' o md parts providers lang ents settings order roots p items i,
  good_doc U cs void (fill c h) -> textdoc_ok d -> d_text d = render_all (fill c h) -> parse U (d_text d) cs void = Ok roots ->
  tag_attrs h = Some (as1 ++ mkHAttr w n v :: as2, pad) -> takes (ci_label i) v o v' ->
  (exists gap y, render_value v = gap ++ bs "=" ++ y /\ value_text v = Some y /\
     offset_at d p = hole c + 1 + length (h_name h) + length (render_attrs as1) + length w + length n + length gap + 1 + o) ->
  do_complete U d cs md parts providers lang ents settings order roots p = Ok items ->
  In i items -> own parts i -> Utf8 (ci_label i) ->
  let l' := fill c (with_attrs (as1 ++ mkHAttr w n v' :: as2) pad h) in
  accepted d i (render_all l') /\ good_doc U cs void l' /\ parse U (render_all l') cs void = Ok (nodes_all 0 l').
Proof.
  intros U d cs void c h as1 w n v as2 pad v' o md parts providers lang ents settings order roots p items i G HD ET HP TA TK (gap & y & RV & VT & LO) C I OWN UL l'.
  assert (HP' := C21_round_trip U cs void _ G). rewrite <- ET, HP in HP'. apply Ok_inj in HP'. subst roots.
  pose proof (do_utf8 _ HD) as HU. destruct (parse_tokens _ _ _ _ _ HU HP) as (l & HT).
  destruct (tag_shape U d cs void c h _ pad G ET TA) as (b & s & B & GN & GA & BP & EW & ES).
  assert (ES0 := ES (as1 ++ mkHAttr w n v :: as2) pad). rewrite EW in ES0.
  destruct GA as [GA1 GA2]. assert (GA1' := GA1). apply Forall_app in GA1' as [GA3 GA4]. inversion GA4 as [|? ? Ga GA5]; subst.
  assert (Ga' := Ga). destruct Ga' as (W1 & W2 & T1 & T2 & GV). cbn [ha_space ha_name ha_value] in W1, W2, T1, T2, GV.
  set (z := render_attrs as2 ++ pad ++ b :: s).
  assert (ER : forall v, render_attrs (as1 ++ mkHAttr w n v :: as2) ++ pad ++ b :: s = render_attrs as1 ++ w ++ n ++ render_value v ++ z).
  { intros u. unfold render_attrs, z. rewrite flat_map_app. cbn [flat_map]. unfold render_attr at 2. cbn [ha_space ha_name ha_value]. rewrite <- !app_assoc. reflexivity. }
  rewrite ER in ES0.
  assert (GD : good_attrs as1) by (split; [auto|]; rewrite map_app in GA2; apply nodup_left in GA2; exact GA2).
  assert (ND : ~ In n (map ha_name (as1 ++ as2))).
  { rewrite map_app. rewrite map_app in GA2. cbn [map ha_name] in GA2. apply NoDup_remove_2 in GA2. exact GA2. }
  destruct (tail_shape as2 pad b s GA5 BP B) as (w3 & x & r & E3 & B3 & X1 & X2 & X3).
  assert (Z : exists e r', z = e :: r' /\ stops e /\ (e = 47%N -> forall gap u, v <> Bare gap u)).
  { unfold z. rewrite E3. destruct w3 as [|e w3]; cbn [app]; eexists _, _; (split; [reflexivity|]).
    - split; [apply X3; auto|]. intros E47. pose proof (good_hole _ _ _ _ _ G) as GH.
      destruct GA5 as [|a2 as2 (Q1 & Q2 & _) _]; [|cbn [render_attrs flat_map] in E3; unfold render_attr at 1 in E3; destruct (ha_space a2) as [|e1 w4]; [tauto|]; rewrite blank_ws in Q1; cbn [app] in E3; injection E3 as E3 _; rewrite <- E3, (Q1 e1) in X1; [discriminate|cbn; auto]].
      cbn [render_attrs flat_map app] in E3. destruct pad as [|e1 pad]; [|rewrite blank_ws in BP; cbn [app] in E3; injection E3 as E3 _; rewrite <- E3, (BP e1) in X1; [discriminate|cbn; auto]].
      cbn [app] in E3. injection E3 as E3 _. rewrite <- E3 in E47.
      assert (SELF : exists nm, h = HSelf nm (as1 ++ [mkHAttr w n v]) []).
      { specialize (ES [] []). rewrite E47 in ES. destruct h as [?|?|? ?|nm a0 p0 body cl p2|nm a0 p0 y0 p2|nm a0 p0|nm a0 p0]; try discriminate TA; cbn [tag_attrs] in TA; apply Some_inj in TA; injection TA as -> ->.
        - exfalso. cbn [with_attrs render h_name] in ES. unfold start_tag in ES. cbn [render_attrs flat_map app] in ES. rewrite <- !app_assoc in ES. apply app_inv_head in ES. apply app_inv_head in ES. apply (f_equal (@hd_error N)) in ES.  cbn [hd_error app bs] in ES. discriminate ES.
        - exfalso. cbn [with_attrs render h_name] in ES. unfold start_tag in ES. cbn [render_attrs flat_map app] in ES. rewrite <- !app_assoc in ES. apply app_inv_head in ES. apply app_inv_head in ES. apply (f_equal (@hd_error N)) in ES. cbn [hd_error app bs] in ES. discriminate ES.
        - eauto. }
      destruct SELF as (nm & EH). rewrite EH in GH. inversion GH; subst. intros gap0 u. match goal with X : [] = [] -> _ |- _ => apply (X eq_refl as1 (mkHAttr w n v) gap0 u eq_refl) end.
    - split; [left; rewrite blank_ws in B3; apply B3; cbn; auto|]. intros E47. rewrite blank_ws in B3. specialize (B3 e (or_introl eq_refl)). rewrite E47 in B3. discriminate. }
  destruct Z as (e0 & r0 & Z1 & Z2 & Z3). rewrite Z1 in ES0.
  destruct (value_here U d cs void c h _ pad l G HD ET TA HT as1 w n v e0 r0 gap y ES0 GD Ga) as (k1 & k2 & K1 & K2 & K3 & K4 & K5 & K6 & K7 & K8 & A1 & A2 & VF); auto.
  { intros Q. apply ND. rewrite map_app. apply in_or_app. auto. }
  set (a := hole c + 1 + length (h_name h) + length (render_attrs as1) + length w + length n + length gap) in *.
  assert (LEN : forall y1 y2 y3 : str, y = y1 ++ y2 ++ y3 -> length y = length y1 + length y2 + length y3) by (intros y1 y2 y3 ->; rewrite !app_length; lia).
  assert (X : exists y1 y2 y3 new, y = y1 ++ y2 ++ y3 /\ Utf8 y1 /\ Utf8 y2 /\
    ci_edit i = Some (range_at d (a + 1 + length y1) (a + 1 + length y1 + length y2), new) /\ ci_format i = Some FPlain /\
    render_value v' = gap ++ bs "=" ++ y1 ++ new ++ y3 /\ good_value v' /\ (forall g u, v' <> Bare g u)).
  { assert (UG : forall g z0, value_text v = Some z0 -> render_value v = g ++ bs "=" ++ z0 -> g = gap /\ z0 = y).
    { intros g z0 V0 R0. rewrite VT in V0. apply Some_inj in V0. subst z0. rewrite RV in R0. apply app_inv_tail in R0. auto. }
    assert (UY : Utf8 y /\ blank gap).
    { destruct v as [|g u|g q u]; cbn [value_text good_value] in *; [discriminate| |].
      - destruct (UG g u eq_refl eq_refl) as [<- <-]. destruct GV as (Q1 & _ & Q2). split; auto. eapply made_of_utf8; eauto.
      - destruct (UG g _ eq_refl eq_refl) as [<- <-]. destruct GV as (Q1 & Q2 & Q3 & _). split; auto. apply u_app; [apply u_one; lia|]. apply u_app; auto. apply u_one; lia. }
    destruct UY as [UY BG].
    assert (FULL : ~ In 34%N (ci_label i) -> ci_edit i = Some (range_at d (a + 1) (a + 1 + length y), bs """" ++ ci_label i ++ bs """") -> ci_format i = Some FPlain ->
       v' = Quoted gap 34%N (ci_label i) -> exists y1 y2 y3 new, y = y1 ++ y2 ++ y3 /\ Utf8 y1 /\ Utf8 y2 /\
         ci_edit i = Some (range_at d (a + 1 + length y1) (a + 1 + length y1 + length y2), new) /\ ci_format i = Some FPlain /\
         render_value v' = gap ++ bs "=" ++ y1 ++ new ++ y3 /\ good_value v' /\ (forall g u, v' <> Bare g u)).
    { intros N34 E1 E2 ->. exists [], y, [], (bs """" ++ ci_label i ++ bs """"). cbn [length]. rewrite app_nil_r, Nat.add_0_r. cbn [app]. split; [auto|]. split; [apply u_nil|]. split; [auto|].
      split; [exact E1|]. split; [exact E2|]. rewrite app_nil_r. split; [reflexivity|]. split; [|discriminate]. cbn [good_value]. auto. }
    destruct (Nat.eq_dec o 0) as [E0|NO].
    - subst o. apply in_split in K1 as (l1 & l2 & EL). rewrite EL in HT.
      destruct (C51_value_edits U d cs void _ l1 k1 l2 md parts providers lang ents settings order p items HD HP HT (or_intror K2) ltac:(lia) C)
        as (n0 & x0 & ka & from & values & wa & we & a1 & e2 & pre & _ & _ & _ & EI & _ & WD & _ & NQ & EF & _ & VS).
      destruct (WD K2) as [-> WF]. rewrite LO, Nat.add_0_r in WF.
      pose proof (value_from_unique _ _ _ _ WF VF) as ->.
      destruct NQ as (-> & -> & _); [intros [Q _]; congruence|].
      rewrite EI in I. apply in_app_or in I as [I|I]; [exfalso; rewrite EF in I; apply in_flat_map in I as (q & Q1 & Q2); eapply OWN; eauto|].
      destruct (VS i I) as (q & u & _ & _ & EL2 & _ & ED & FM & _). rewrite <- EL2 in ED.
      rewrite LO, Nat.add_0_r in ED.
      inversion TK as [u0 g0 z0 V0 R0 N0 EV1 EO EV2|g0 u0 o0 LE N0 EV1 EO EV2|g0 q0 v1 word v2 o0 LE U1 U2 US F1 F2 N0 EV1 EO EV2]; subst; try lia.
      destruct (UG _ _ V0 R0) as [-> _]. apply FULL; auto. apply ED. intros [Q _]; congruence.
    - apply in_split in K5 as (l1 & l2 & EL). rewrite EL in HT.
      assert (LK : tk_off k2 < offset_at d p <= tk_end k2).
      { rewrite K7, K8, LO. split; [lia|]. inversion TK; subst; [lia| |].
        - destruct (UG _ _ eq_refl eq_refl) as [_ <-]. lia.
        - destruct (UG _ _ eq_refl eq_refl) as [_ <-]. rewrite !app_length. cbn [length]. lia. }
      destruct (C51_value_edits U d cs void _ l1 k2 l2 md parts providers lang ents settings order p items HD HP HT (or_introl K6) LK C)
        as (n0 & x0 & ka & from & values & wa & we & a1 & e2 & pre & _ & _ & _ & EI & WA & _ & QT & NQ & EF & _ & VS).
      destruct (WA K6) as [-> ->]. 
      rewrite EI in I. apply in_app_or in I as [I|I]; [exfalso; rewrite EF in I; apply in_flat_map in I as (q & Q1 & Q2); eapply OWN; eauto|].
      destruct (VS i I) as (q & u & _ & _ & EL2 & EDQ & ED & FM & _). rewrite <- EL2 in ED, EDQ.
      inversion TK as [u0 g0 z0 V0 R0 N0 EV1 EO EV2|g0 u0 o0 LE N0 EV1 EO EV2|g0 q0 v1 word v2 o0 LE U1 U2 US F1 F2 N0 EV1 EO EV2]; [lia| |].
      + rewrite <- EV1 in *. destruct (UG _ _ eq_refl eq_refl) as [<- <-].
        assert (NQ' : ~ (tk_type k2 = AttributeValue /\ (exists c0 : N, nth_error (d_text d) (tk_off k2) = Some c0 /\ (c0 = 34%N \/ c0 = 39%N)))).
        { intros (_ & c0 & Q1 & Q2). cbn [good_value] in GV. destruct GV as (_ & G6 & G7). destruct (bare_first _ G7 G6) as (x1 & y1 & E & _ & Nx1 & Nx2). rewrite K7 in Q1.
          rewrite E in A1. cbn [app] in A1. rewrite (at_first _ _ _ _ A1) in Q1. apply Some_inj in Q1. subst c0. tauto. }
        destruct (NQ NQ') as (-> & -> & _). rewrite EV2. apply FULL; auto. rewrite <- K8, <- K7. auto.
      + rewrite <- EV1 in *. destruct (UG _ _ eq_refl eq_refl) as [<- EY]. cbn [good_value] in GV. destruct GV as (_ & GQ & _ & NQv).
        rewrite <- EY in A1. rewrite <- !app_assoc in A1.
        assert (FB : nth_error (d_text d) (a + 1) = Some q0) by (eapply at_first; exact A1).
        assert (QQ : tk_type k2 = AttributeValue /\ (exists c0 : N, nth_error (d_text d) (tk_off k2) = Some c0 /\ (c0 = 34%N \/ c0 = 39%N))).
        { split; auto. exists q0. rewrite K7. auto. }
        assert (LY : length y = 2 + length v1 + length word + length v2) by (rewrite <- EY, !app_length; cbn [length]; lia).
        assert (LB : nth_error (d_text d) (tk_end k2 - 1) = Some q0).
        { rewrite K8, LY. replace (a + 1 + (2 + length v1 + length word + length v2) - 1) with ((a + 1) + (1 + length v1 + length word + length v2)) by lia.
          rewrite (at_nth _ _ _ _ A1). replace ([q0] ++ v1 ++ word ++ v2 ++ [q0] ++ e0 :: r0) with (([q0] ++ v1 ++ word ++ v2) ++ [q0] ++ e0 :: r0) by (rewrite <- !app_assoc; reflexivity).
          rewrite nth_error_app2 by (rewrite !app_length; cbn [length]; lia). rewrite !app_length. cbn [length]. replace (_ - _) with 0 by lia. reflexivity. }
        destruct (QT QQ) as (hi & H1 & _ & WO & _). rewrite H1 in WO by (rewrite LB, K7, FB; reflexivity). clear H1.
        assert (BY : forall j b0, nth_error (v1 ++ word ++ v2) j = Some b0 -> nth_error (d_text d) (a + 2 + j) = Some b0).
        { intros j b0 J. replace (a + 2 + j) with ((a + 1) + (1 + j)) by lia. rewrite (at_nth _ _ _ _ A1). cbn [app nth_error Nat.add]. 
          replace (v1 ++ word ++ v2 ++ q0 :: e0 :: r0) with ((v1 ++ word ++ v2) ++ q0 :: e0 :: r0) by (rewrite <- !app_assoc; reflexivity).
          rewrite nth_error_app1; auto. apply nth_error_lt in J. auto. }
        assert (WB : forall j, a + 2 + length v1 <= j < a + 2 + length v1 + length word -> exists c0, nth_error (d_text d) j = Some c0 /\ is_uspace c0 = false).
        { intros j J. destruct (nth_error word (j - (a + 2 + length v1))) as [c0|] eqn:E; [|apply nth_error_None in E; lia].
          exists c0. split; [|apply US; eapply nth_error_In; eauto]. replace j with (a + 2 + (length v1 + (j - (a + 2 + length v1)))) by lia. apply BY.
          rewrite nth_error_app2 by lia. replace (length v1 + (j - (a + 2 + length v1)) - length v1) with (j - (a + 2 + length v1)) by lia. rewrite nth_error_app1 by lia. auto. }
        unfold word_around in WO. rewrite K7, K8, LO in WO. destruct WO as (WO1 & WO2 & WO3 & WO4 & WO5 & WO6 & WO7 & WO8).
        assert (EA1 : a1 = a + 2 + length v1).
        { destruct (Nat.lt_trichotomy a1 (a + 2 + length v1)) as [LT1|[|LT1]]; auto; exfalso.
          - destruct F1 as [->|(u1 & b1 & -> & SB)]; [cbn [length] in *; lia|]. rewrite app_length in *. cbn [length] in *.
            destruct (WO2 (a + 2 + length u1)) as (c0 & C0 & C1); [lia|]. rewrite (BY (length u1) b1) in C0; [congruence|].
            rewrite <- !app_assoc. rewrite nth_error_app2, Nat.sub_diag by lia. reflexivity.
          - destruct WO3 as [WO3|(c0 & C0 & C1)]; [lia|]. destruct (WB (a1 - 1)) as (c1 & C2 & C3); [lia|]. congruence. }
        assert (EE2 : e2 = a + 2 + length v1 + length word).
        { destruct (Nat.lt_trichotomy e2 (a + 2 + length v1 + length word)) as [LT1|[|LT1]]; auto; exfalso.
          - destruct WO8 as [WO8|(c0 & C0 & C1)]; [lia|]. destruct (WB e2) as (c1 & C2 & C3); [lia|]. congruence.
          - destruct F2 as [->|(b1 & u1 & -> & SB)]; [cbn [length] in *; lia|]. cbn [length] in *.
            destruct (WO7 (a + 2 + length v1 + length word)) as (c0 & C0 & C1); [lia|]. replace (a + 2 + length v1 + length word) with (a + 2 + (length v1 + length word)) in C0 by lia.
            rewrite (BY (length v1 + length word) b1) in C0; [congruence|].
            rewrite app_assoc, nth_error_app2 by (rewrite app_length; lia). rewrite app_length, Nat.sub_diag. reflexivity. }
        subst a1 e2. exists ([q0] ++ v1), word, (v2 ++ [q0]), (ci_label i).
        split; [rewrite <- EY, <- !app_assoc; reflexivity|]. split; [apply u_app; auto; apply u_one; lia|]. split; [auto|].
        split. { rewrite (EDQ QQ). rewrite app_length. cbn [length]. do 3 f_equal; lia. }
        split; [exact FM|]. split; [cbn [render_value]; rewrite <- !app_assoc; reflexivity|]. split; [|discriminate].
        cbn [good_value]. split; [auto|]. split; [auto|]. assert (UV2 : Utf8 v2).
        { assert (Uq : Utf8 [q0]) by (apply u_one; lia). pose proof (at_adv _ HU _ _ _ (at_adv _ HU _ _ _ (at_adv _ HU _ _ _ A1 Uq) U1) U2) as [Q1 Q2].
          apply Bd_skipn_utf8 in Q2. rewrite Q1 in Q2. cbn [app] in Q2. apply utf8_split_at in Q2; [apply Q2|lia]. }
        split; [apply u_app; auto; apply u_app; auto|]. intros Q. apply in_app_or in Q as [Q|Q]; [apply NQv; apply in_or_app; auto|]. apply in_app_or in Q as [Q|Q]; [tauto|].
        apply NQv. apply in_or_app. right. apply in_or_app. auto. }
  destruct X as (y1 & y2 & y3 & new & EY & UY1 & UY2 & ED & FM & RV' & GV' & NB').
  assert (GG : good_doc U cs void l').
  { eapply good_with; eauto.
    - split; [|rewrite map_app in *; exact GA2]. apply Forall_app. split; auto. constructor; auto. split; auto.
    - intros l0 a0 g0 x0 E0 E1 E2. split; [auto|]. destruct as2 as [|a2 as2] using rev_ind.
      + apply app_inj_tail in E0 as [<- <-]. cbn [ha_value] in E1. exfalso. eapply NB'; eauto.
      + rewrite app_comm_cons, app_assoc in E0. apply app_inj_tail in E0 as [<- <-]. eexists _, _. split; [rewrite app_comm_cons, app_assoc; reflexivity|auto]. }
  split; [|split; [exact GG|apply C21_round_trip; exact GG]].
  eexists _, new, new. split; [exact ED|]. split; [rewrite FM; discriminate|]. split; [auto|].
  assert (EA : a + 1 + length y1 = hole c + length (bs "<" ++ h_name h ++ render_attrs as1 ++ w ++ n ++ gap ++ bs "=" ++ y1)) by (unfold a; rewrite !app_length; cbn [length bs]; lia).
  rewrite EY in A1. rewrite <- !app_assoc in A1. pose proof (at_adv _ HU _ _ _ A1 UY1) as A3. pose proof (at_adv _ HU _ _ _ A3 UY2) as A4.
  symmetry. rewrite EA. apply (swapped d c h HD ET) with (z := y3 ++ z).
  - rewrite ES0, RV, Z1, EY, <- !app_assoc. reflexivity.
  - rewrite ES, ER, RV', <- !app_assoc. reflexivity.
  - rewrite <- EA. apply A3.
  - rewrite <- EA. apply A4.
Qed.
Print Assumptions C71_value.

(** Right behind the '>' of a start tag whose end tag is missing: accepting the end tag, not hidden by the
    settings, restores the document. *)
Theorem C71_auto_close : forall U d cs md parts providers lang ents settings order roots c name attrs pad p items,
  let void := get_void_elements providers lang in
  let whole := fill c (HElement name attrs pad [] name []) in
  let before := opens (levels c) ++ render_all (front c) ++ start_tag name attrs pad (bs ">") in
  textdoc_ok d -> good_doc U cs void whole -> d_text d = before ++ back c ->
  parse U (d_text d) cs void = Ok roots -> offset_at d p = length before ->
  do_complete U d cs md parts providers lang ents settings order roots p = Ok items ->
  (forall s, settings = Some s -> cs_hide_auto s = false) -> plain name ->
  exists i, items = [i] /\ accepted d i (render_all whole) /\ parse U (render_all whole) cs void = Ok (nodes_all 0 whole).
Proof.
  intros U d cs md parts providers lang ents settings order roots c name attrs pad p items void whole before HD G ET HP EO C HS PN.
  destruct (fill_levels _ _ _ _ _ G) as [GL GF]. pose proof (good_hole _ _ _ _ _ G) as GH. inversion GH; subst.
  set (v := mkLevel (front c) name attrs pad).
  assert (EB : before = opens (levels c ++ [v])).
  { unfold before, opens. rewrite flat_map_app. cbn [flat_map]. rewrite app_nil_r. reflexivity. }
  assert (GV : Forall (good_level U cs void) (levels c ++ [v])).
  { apply Forall_app. split; auto. constructor; auto. split; auto 8. }
  pose proof (do_utf8 _ HD) as HU. destruct (parse_tokens _ _ _ _ _ HU HP) as (l & HT).
  pose proof (at_start _ HU) as A. rewrite ET in A at 2. rewrite EB in A.
  destruct (opens_run U (d_text d) cs void HU (levels c) v (scanner_new 0 WithinContent) (mkP (node_new 0 (length (d_text d))) [] None None None) _ GV eq_refl A)
    as (sc0 & p0 & sc1 & p1 & R0 & R1 & S1 & L1 & P1 & C1 & Q1 & K1 & K2).
  pose proof (run_trans _ _ _ _ _ _ _ _ _ _ R0 R1) as R. cbn [pos scanner_new] in P1. cbn [Nat.add] in P1. rewrite <- EB in P1.
  assert (LE : pos sc1 <= length (d_text d)) by (rewrite ET, app_length; lia).
  destruct (stays_open U (d_text d) cs void roots HU HP name (pos sc0) (pos sc1) sc1 p1 R LE S1) as (n & I & W1 & W2 & W3 & _).
  { rewrite C1. repeat split. }
  { rewrite Q1. discriminate. }
  destruct (C69_start_tag_end U d cs void roots l md parts providers lang ents settings order p (token_of sc1) items HD HP HT) as (n' & I' & N1 & N2 & N3); auto.
  { eapply last_token; eauto. lia. }
  { cbn [token_of tk_off tk_end]. lia. }
  assert (n' = n) by (eapply (ste_unique U d cs void roots HD HP); eauto; rewrite W3, EO, P1; reflexivity). subst n'.
  assert (NV : is_void_element name (get_void_elements providers lang) = false).
  { match goal with X : ~ In name void |- _ => clear - X; rename X into NI end. unfold void in NI. destruct (is_void_element name (get_void_elements providers lang)) eqn:E; auto. exfalso. apply NI. unfold is_void_element in E. apply existsb_exists in E as (y & Iy & Ey). apply beq_eq in Ey. subst y. exact Iy. }
  destruct (N3 name W1) as (i & EI & _ & E1 & E2 & _); [apply N2; exists name; auto|].
  exists i. split; [exact EI|]. split; [|apply C21_round_trip; exact G].
  eexists _, _, (bs "</" ++ name ++ bs ">"). split; [exact E1|]. split; [|split; [congruence|]].
  - intros _. change (bs "$0</" ++ name ++ bs ">") with (36%N :: 48%N :: bs "</" ++ name ++ bs ">"). apply stop_expands; [lia| |].
    + intros b q Q. injection Q as <- _. vm_compute. intros [Q1' Q2']. tauto.
    + apply ex_char; [discriminate|discriminate|]. apply ex_char; [discriminate|discriminate|]. apply plain_expands; auto. apply ex_char; [discriminate|discriminate|constructor].
  - unfold edited. cbn [map fst snd]. assert (BO : Bd (d_text d) (offset_at d p)).
    { apply at_adv in A; [|auto|]; [rewrite <- EB in A; cbn [Nat.add] in A; rewrite EO; apply A|].
      clear - GV. induction GV; [apply u_nil|]. unfold opens. cbn [flat_map]. apply u_app; auto. eapply level_utf8; eauto. }
    destruct (range_text d _ _ HD BO BO) as (_ & -> & ->). rewrite (replace_one before [] (back c)); auto; [|cbn [length]; lia].
    unfold whole. rewrite fill_text. cbn [render flat_map app]. unfold before, end_tag. rewrite <- !app_assoc. reflexivity.
Qed.
Print Assumptions C71_auto_close.

(** ** In text *)
Lemma front_ns U cs void c h : good_doc U cs void (fill c h) -> no_split (front c ++ [h]).
Proof.
  induction c as [b a|b name attrs pad c IH close pad2 a]; intros [G NS]; cbn [fill front] in *.
  - change (b ++ h :: a) with (b ++ [h] ++ a) in NS. rewrite app_assoc in NS. eapply no_split_app_l; eauto.
  - apply Forall_app in G as [_ G]. inversion G as [|? ? G1 _]; subst. inversion G1; subst. apply IH. split; auto.
Qed.
Lemma back_start U cs void c s : good_doc U cs void (fill c (HText s)) -> back c = [] \/ exists r, back c = 60%N :: r.
Proof.
  induction c as [b a|b name attrs pad c IH close pad2 a]; intros [G NS]; cbn [fill back] in *.
  - apply Forall_app in G as [_ G]. inversion G as [|? ? _ Ga]; subst. apply no_split_app_r in NS. apply no_split_text in NS.
    destruct a as [|x a]; [left; reflexivity|]. right. inversion Ga as [|? ? Gx _]; subst. destruct (render_lt _ _ _ _ Gx) as [[z ->]|[r E]]; [contradiction|].
    rewrite render_cons, E. cbn [app]. eauto.
  - apply Forall_app in G as [_ G]. inversion G as [|? ? G1 _]; subst. inversion G1; subst. destruct IH as [E|[r E]]; [split; auto| |]; rewrite E; cbn [app end_tag bs]; right; eauto.
Qed.
Lemma text_here U d cs void c s l : textdoc_ok d -> good_doc U cs void (fill c (HText s)) -> d_text d = render_all (fill c (HText s)) ->
  doc_tokens U (d_text d) cs = Ok l ->
  at_ (d_text d) (hole c) (s ++ back c) /\ exists k, In k l /\ tk_type k = Content /\ tk_off k = hole c /\ tk_end k = hole c + length s.
Proof.
  intros HD G ET HT. set (t := d_text d) in *. pose proof (do_utf8 _ HD) as HU. fold t in HU.
  destruct (fill_levels _ _ _ _ _ G) as [GL GF]. pose proof (front_ns _ _ _ _ _ G) as NF. pose proof (back_start _ _ _ _ _ G) as BK.
  pose proof (good_hole _ _ _ _ _ G) as GH. set (r0 := scanner_new 0 WithinContent). set (q0 := mkP (node_new 0 (length t)) [] None None None).
  pose proof (at_start t HU) as A. assert (E := fill_text c (HText s)). rewrite <- ET in E. rewrite E in A at 2. cbn [render] in A.
  assert (S1 : exists sc0 p0, run U t cs void r0 q0 sc0 p0 /\
    st sc0 = WithinContent /\ pos sc0 = length (opens (levels c)) /\ at_ t (pos sc0) (render_all (front c) ++ s ++ back c)).
  { destruct (levels c) as [|v0 vs0] eqn:EL.
    - eexists _, _. split; [apply run_nil|]. split; [reflexivity|]. split; [reflexivity|]. exact A.
    - destruct (@exists_last _ (v0 :: vs0)) as (vs & v & EV); [discriminate|]. rewrite EV in *.
      destruct (opens_run U t cs void HU vs v r0 q0 _ GL eq_refl A)
        as (s0 & p0 & s1 & p1 & R0 & R1 & S1 & _ & P1 & _). cbn [r0 scanner_new pos Nat.add] in P1.
      exists s1, p1. split; [eapply run_trans; eauto|]. split; [auto|]. split; [auto|]. rewrite P1. apply (at_adv _ HU 0) in A; [exact A|].
      clear - GL HU. induction GL; [apply u_nil|]. unfold opens. cbn [flat_map]. apply u_app; auto. eapply level_utf8; eauto. }
  destruct S1 as (sc0 & p0 & R0 & S0 & P0 & A0).
  assert (S2 : exists sc1 p1, run U t cs void sc0 p0 sc1 p1 /\ st sc1 = WithinContent /\ pos sc1 = pos sc0 + length (render_all (front c))).
  { destruct (front c) as [|f0 fs0] eqn:EF.
    - eexists _, _. split; [apply run_nil|]. split; [auto|]. cbn [render_all flat_map length]. lia.
    - destruct (@exists_last _ (f0 :: fs0)) as (fs & f & EV); [discriminate|]. rewrite EV in *. destruct GF as [GF NS].
      apply Forall_app in GF as [GF Gf]. inversion Gf as [|? ? Gf1 _]; subst.
      assert (NT : forall x, f <> HText x).
      { intros x ->. rewrite <- app_assoc in NF. apply no_split_app_r in NF. cbn [app] in NF. exact NF. }
      destruct (render_lt _ _ _ _ Gf1) as [[x X]|[r X]]; [elim (NT x X)|].
      rewrite render_app, render_cons in A0. cbn [render_all flat_map] in A0. rewrite app_nil_r, <- !app_assoc in A0.
      destruct (all_run U t cs void HU fs sc0 p0 _ (conj GF (no_split_app_l _ _ NS)) S0 A0) as (sc1 & p1 & R1 & S1 & P1 & _).
      { right. rewrite X. cbn [app]. eauto. }
      apply at_adv in A0; [|auto|eapply doc_utf8; split; eauto; eapply no_split_app_l; eauto]. rewrite <- P1 in A0.
      destruct (item_ok U t cs void HU f Gf1 sc1 p1 _ Gf1 S1 A0) as (sc2 & p2 & R2 & S2 & P2 & _).
      { intros [x X']. elim (NT x X'). }
      exists sc2, p2. split; [eapply run_trans; eauto|]. split; [auto|]. rewrite P2, P1, render_app, app_length. cbn [render_all flat_map]. rewrite app_nil_r. lia. }
  destruct S2 as (sc1 & p1 & R1 & S1 & P1).
  assert (EP : pos sc1 = hole c) by (rewrite hole_front, app_length; lia).
  apply at_adv in A0; [|auto|eapply doc_utf8; eauto]. rewrite <- P1, EP in A0. split; [exact A0|].
  inversion GH as [x (NE & Us & NL) Ex| | | | | | |]; subst. rewrite <- EP in A0.
  assert (L := at_len _ _ _ A0). rewrite app_length in L. assert (LS : 0 < length s) by (destruct s; [tauto|cbn; lia]).
  set (sc2 := finish sc1 (pos sc1) Content None (pos sc1 + length s) WithinContent).
  assert (R2 : run U t cs void sc1 p1 sc2 p1).
  { apply one; [exact HU|..]; unfold sc2; cbn [tok finish pos]; try discriminate; try lia.
    - apply O_content; auto; [lia| |].
      + destruct s as [|b s]; [tauto|]. rewrite (at_first t _ b (s ++ back c)) by (exact A0). intros Q. inversion Q. apply NL. cbn; auto.
      + repeat split; try lia.
        * intros i I1 I2 Q. apply NL. replace i with (pos sc1 + (i - pos sc1)) in Q by lia.
          rewrite (at_nth _ _ _ _ A0), nth_error_app1 in Q by lia. eapply nth_error_In; eauto.
        * destruct BK as [B|[s' B]]; rewrite B in *; [cbn in L; lia|].
          right. rewrite (at_nth _ _ _ _ A0), nth_error_app2, Nat.sub_diag by lia. auto.
    - apply A0.
    - reflexivity. }
  exists (token_of sc2). split; [|cbn; auto].
  eapply (last_token U t cs void l HU HT); [eapply run_trans; [exact R0|]; eapply run_trans; [exact R1|exact R2]|]. unfold sc2. cbn [finish pos]. lia.
Qed.

(** Behind '&' and letters and digits: the reference is completed. *)
Theorem C71_entity : forall U t cs void c s1 typed s2 md parts providers lang ents settings order roots items i,
  let d := utf16_doc t in
  let o := hole c + length s1 + 1 + length typed in
  good_doc U cs void (fill c (HText (s1 ++ bs "&" ++ typed ++ s2))) -> t = render_all (fill c (HText (s1 ++ bs "&" ++ typed ++ s2))) ->
  Utf8 s1 -> Forall alnum typed -> parse U t cs void = Ok roots -> (exists m, In m (doc_nodes roots) /\ n_start m < o) ->
  do_complete U d cs md parts providers lang ents settings order roots (position_at d o) = Ok items ->
  In i items -> (forall q, In q parts -> ~ In i (cp_content q)) ->
  exists y z, In (y ++ bs ";", z) ents /\ ci_label i = bs "&" ++ y ++ bs ";" /\
    let after := fill c (HText (s1 ++ bs "&" ++ y ++ bs ";" ++ s2)) in
    (Utf8 y -> ~ In 60%N y ->
    accepted d i (render_all after) /\ good_doc U cs void after /\ parse U (render_all after) cs void = Ok (nodes_all 0 after)).
Proof.
  intros U t cs void c s1 typed s2 md parts providers lang ents settings order roots items i d o G ET U1 AL HP EM C II NP.
  set (s := s1 ++ bs "&" ++ typed ++ s2) in *.
  assert (HU : Utf8 t) by (rewrite ET; eapply doc_utf8; eauto).
  assert (HD : textdoc_ok d) by (apply C27_contract; auto).
  destruct (parse_tokens _ _ _ _ _ HU HP) as (l & HT).
  destruct (text_here U d cs void c s l HD G ET HT) as (A & k & K & T & KO & KE). cbn [d_text utf16_doc] in A.
  assert (LS : length s = length s1 + 1 + length typed + length s2) by (unfold s; rewrite !app_length; cbn [length bs]; lia).
  assert (UT : Utf8 typed).
  { apply ascii_utf8. unfold all_ascii. apply forallb_forall. intros b I. rewrite Forall_forall in AL. specialize (AL b I). unfold alnum in AL. lia. }
  assert (EO : o = hole c + length s1 + 1 + length typed) by reflexivity.
  assert (A1 : at_ t (hole c + length s1) (bs "&" ++ typed ++ s2 ++ back c)).
  { eapply at_adv; eauto. unfold s in A. rewrite <- !app_assoc in A. exact A. }
  assert (A2 : at_ t o (s2 ++ back c)).
  { replace o with (hole c + length s1 + length (bs "&") + length typed) by (cbn [length bs]; lia). eapply at_adv; eauto. eapply at_adv; eauto. apply u_one. reflexivity. }
  assert (LO : o <= length t) by (pose proof (at_len _ _ _ A2); pose proof (Bd_le _ _ (proj2 A2)); lia).
  assert (BO : is_boundary t o = true) by (apply Bd_boundary; apply A2).
  assert (OP : offset_at d (position_at d o) = o) by (apply (do_inv _ HD); auto).
  assert (REF : reference_at t o (hole c + length s1)).
  { split; [lia|]. split; [rewrite (at_first t _ 38%N (typed ++ s2 ++ back c)) by exact A1; auto|]. intros x Ix.
    replace x with (hole c + length s1 + (x - (hole c + length s1))) by lia. rewrite (at_nth _ _ _ _ A1).
    destruct (x - (hole c + length s1)) as [|y] eqn:EY; [lia|]. cbn [bs app nth_error]. rewrite nth_error_app1 by lia.
    destruct (nth_error typed y) as [b|] eqn:NB; [|apply nth_error_None in NB; lia]. exists b. split; auto. rewrite Forall_forall in AL. apply AL. eapply nth_error_In; eauto. }
  destruct (C69_text U d cs void roots l md parts providers lang ents settings order (position_at d o) k items HD HP HT K) as (found & EI & _ & HF); auto.
  { rewrite OP. lia. }
  { rewrite OP. exact EM. }
  rewrite OP in HF. destruct (HF _ REF) as (CH & FF & FE).
  assert (IF : In i found).
  { rewrite EI in II. apply in_app_or in II as [II|II]; auto. apply in_flat_map in II as (q & Q & II). elim (NP q Q II). }
  destruct (proj1 (FE (ci_label i) (ci_edit i) (ci_doc i))) as (y & z & I1 & I2 & _ & I4).
  { apply in_map_iff. exists i. auto. }
  exists y, z. split; [auto|]. split; [auto|]. intros after Uy Ny.
  assert (GA : good_doc U cs void after).
  { unfold after. apply good_swap with (h := HText s); auto. pose proof (good_hole _ _ _ _ _ G) as GH. inversion GH as [x (NE & Us & NL) Ex| | | | | | |]; subst x.
    constructor. split; [destruct s1; discriminate|]. split.
    - apply u_app; auto. apply u_app; [apply u_one; reflexivity|]. apply u_app; auto. apply u_app; [apply u_one; reflexivity|].
      assert (X : Utf8 (skipn (length s1 + 1 + length typed) s)).
      { apply Bd_skipn_utf8; auto. replace (length s1 + 1 + length typed) with (0 + length (s1 ++ bs "&" ++ typed)) by (rewrite !app_length; cbn [length bs]; lia).
        assert (X := at_start s Us). unfold s in X at 2. rewrite !app_assoc in X. rewrite <- (app_assoc s1) in X. apply (at_adv s Us 0) in X; [apply X|].
        apply u_app; auto. apply u_app; auto. apply u_one; reflexivity. }
      unfold s in X. replace (length s1 + 1 + length typed) with (length (s1 ++ bs "&" ++ typed)) in X by (rewrite !app_length; cbn [length bs]; lia).
      rewrite !app_assoc in X. rewrite <- (app_assoc s1) in X. rewrite skipn_app, skipn_all, Nat.sub_diag in X. exact X.
    - intros Q. apply in_app_or in Q as [Q|Q]; [apply NL; unfold s; apply in_or_app; auto|]. apply in_app_or in Q as [Q|Q]; [destruct Q as [Q|[]]; discriminate|].
      apply in_app_or in Q as [Q|Q]; [auto|]. apply in_app_or in Q as [Q|Q]; [destruct Q as [Q|[]]; discriminate|].
      apply NL. unfold s. apply in_or_app. right. apply in_or_app. right. apply in_or_app. auto. }
  split; [|split; [exact GA|apply C21_round_trip; exact GA]].
  destruct (FF i IF) as (F1 & _ & _). eexists _, _, _. split; [exact I4|]. split; [congruence|]. split; [reflexivity|].
  assert (PB : position_at d o = mkPos (line (position_at d (hole c + length s1))) (character (position_at d (hole c + length s1)) + (o - (hole c + length s1)))).
  { apply utf16_plain; auto; [apply Bd_boundary; apply A1|lia|]. intros x Ix. destruct REF as (_ & R2 & R3).
    destruct (Nat.eq_dec x (hole c + length s1)) as [-> |NE]; [exists 38%N; split; auto; lia|]. destruct (R3 x) as (b & B & B'); [lia|].
    exists b. split; auto. unfold alnum in B'. lia. }
  assert (ER : mkRange (mkPos (line (position_at d o)) (character (position_at d o) - (o - (hole c + length s1)))) (position_at d o) = range_at d (hole c + length s1) o).
  { unfold range_at. f_equal. rewrite PB. cbn [line character]. destruct (position_at d (hole c + length s1)) as [la ca]. cbn [line character]. f_equal. lia. }
  rewrite ER. unfold edited. cbn [map fst snd]. destruct (range_text d _ _ HD (proj2 A1) (proj2 A2)) as (_ & -> & ->).
  rewrite (replace_one ((opens (levels c) ++ render_all (front c)) ++ s1) (bs "&" ++ typed) (s2 ++ back c)).
  - unfold after. rewrite fill_text. cbn [render]. rewrite <- !app_assoc. reflexivity.
  - cbn [d_text d utf16_doc]. rewrite ET, fill_text. unfold s. cbn [render]. rewrite <- !app_assoc. reflexivity.
  - rewrite hole_front, !(app_length _ s1). reflexivity.
  - rewrite EO, hole_front, !app_length. cbn [length bs]. lia.
Qed.
Print Assumptions C71_entity.

(** ** Documents that meet the hypotheses *)
Definition acc_ctx : ctx := Inside [] (bs "div") [] [] (Here [] []) (bs "div") [] [].
Definition acc_input (attrs : list hattr) : html := HVoid (bs "input") attrs [].
Lemma acc_inside h : is_text h = false -> good demo_unicode false html5_void h -> good_doc demo_unicode false html5_void (fill acc_ctx h).
Proof.
  intros NT G. split; [|exact I]. cbn [acc_ctx fill app]. constructor; [|constructor]. apply G_element; try name; try blanks.
  - intros [H|H]; discriminate.
  - intros IN. vm_compute in IN. repeat (destruct IN as [IN|IN]; [discriminate IN|]). exact IN.
  - attrs_tac.
  - constructor; [exact G|constructor].
  - cbn. destruct h; auto.
  - reflexivity.
Qed.
Lemma acc_good attrs : good_attrs attrs -> good_doc demo_unicode false html5_void (fill acc_ctx (acc_input attrs)).
Proof.
  intros G. apply acc_inside; [reflexivity|]. apply G_void; try name; try blanks; auto.
  - intros [H|H]; discriminate.
  - cbn. tauto.
Qed.
Definition a_ty : hattr := mkHAttr sp (bs "ty") NoValue.
Definition a_value3 : hattr := mkHAttr sp (bs "value") (Quoted [] 34%N (bs "3")).
Definition a_type (v : hvalue) : hattr := mkHAttr sp (bs "type") v.
Lemma acc_attrs : good_attrs [a_ty; a_value3] /\ good_attrs [mkHAttr (bs "  ") (bs "value") (Quoted [] 34%N (bs "3"))] /\
  good_attrs [a_type (Bare [] (bs "te"))] /\ good_attrs [a_type (Quoted [] 34%N (bs "x te"))].
Proof.
  split; [|split; [|split]].
  - attrs_tac; attr_tac; [exact I|]. split; [blanks|]. split; [auto|]. split; [apply ascii_utf8; reflexivity|cbn; intuition discriminate].
  - attrs_tac; attr_tac. split; [blanks|]. split; [auto|]. split; [apply ascii_utf8; reflexivity|cbn; intuition discriminate].
  - attrs_tac; attr_tac. split; [blanks|]. split; [discriminate|]. exists (bs "te"). split; [reflexivity|]. intros c [<-|[<-|[]]]; (split; [reflexivity|]); (split; [reflexivity|]); cbn; intuition discriminate.
  - attrs_tac; attr_tac. split; [blanks|]. split; [auto|]. split; [apply ascii_utf8; reflexivity|cbn; intuition discriminate].
Qed.
Definition acc_text (attrs : list hattr) : str := render_all (fill acc_ctx (acc_input attrs)).
(** "<div><input ty| value="3"></div>" *)
Example C71_attribute_name_demo :
  good_doc demo_unicode false html5_void (fill acc_ctx (acc_input [a_ty; a_value3])) /\ textdoc_ok (utf16_doc (acc_text [a_ty; a_value3])) /\
  acc_text [a_ty; a_value3] = bs "<div><input ty value=""3""></div>" /\
  tag_attrs (acc_input [a_ty; a_value3]) = Some ([] ++ mkHAttr sp (bs "ty") NoValue :: [a_value3], []) /\
  hole acc_ctx + 1 + length (h_name (acc_input [a_ty; a_value3])) + length (render_attrs []) + length sp = 12 /\
  edits_at (acc_text [a_ty; a_value3]) 14 = Ok [(bs "type", Some (rng0 12 14, bs "type=""$1""")); (bs "data-", Some (rng0 12 14, bs "data-$1=""$2"""))] /\
  offset_at (utf16_doc (acc_text [a_ty; a_value3])) (mkPos 0 14) = 14 /\
  expands (bs "type=""$1""") (bs "type=""""") /\ plain (bs "type") /\
  edited (utf16_doc (acc_text [a_ty; a_value3])) [(rng0 12 14, bs "type=""""")] = acc_text [a_type (Quoted [] 34%N []); a_value3].
Proof.
  split; [apply acc_good, acc_attrs|]. split; [apply C27_contract, ascii_utf8; reflexivity|]. split; [reflexivity|]. split; [reflexivity|]. split; [reflexivity|].
  split; [vm_compute; reflexivity|]. split; [vm_compute; reflexivity|]. split.
  { change (bs "type=""$1""") with (bs "type=""" ++ 36%N :: 49%N :: bs """"). change (bs "type=""""") with (bs "type=""" ++ bs """"). apply plain_expands; [split; cbn; intuition discriminate|]. apply stop_expands; [lia| |].
    - intros b q Q. injection Q as <- _. lia.
    - apply ex_char; [discriminate|discriminate|constructor]. }
  split; [split; cbn; intuition discriminate|]. vm_compute. reflexivity.
Qed.
(** "<div><input | value="3"></div>" *)
Definition a_wide : hattr := mkHAttr (bs "  ") (bs "value") (Quoted [] 34%N (bs "3")).
Example C71_attribute_space_demo :
  good_doc demo_unicode false html5_void (fill acc_ctx (acc_input [a_wide])) /\ textdoc_ok (utf16_doc (acc_text [a_wide])) /\
  gap_at [a_wide] [] [] sp [a_value3] [] /\ acc_text [a_wide] = bs "<div><input  value=""3""></div>" /\
  edits_at (acc_text [a_wide]) 12 = Ok [(bs "type", Some (rng0 12 12, bs "type=""$1""")); (bs "data-", Some (rng0 12 12, bs "data-$1=""$2"""))] /\
  edited (utf16_doc (acc_text [a_wide])) [(rng0 12 12, bs "type=""""")] = acc_text [a_type (Quoted [] 34%N []); a_value3].
Proof.
  split; [apply acc_good, acc_attrs|]. split; [apply C27_contract, ascii_utf8; reflexivity|].
  split; [apply (gap_mid _ _ [] sp sp (bs "value") (Quoted [] 34%N (bs "3")) []); [reflexivity|discriminate]|]. split; [reflexivity|]. split; vm_compute; reflexivity.
Qed.
(** "<div><input type=te|></div>" and "<div><input type="x te|"></div>" *)
Example C71_value_demo :
  good_doc demo_unicode false html5_void (fill acc_ctx (acc_input [a_type (Bare [] (bs "te"))])) /\
  textdoc_ok (utf16_doc (acc_text [a_type (Bare [] (bs "te"))])) /\
  takes (bs "text") (Bare [] (bs "te")) 2 (Quoted [] 34%N (bs "text")) /\
  edits_at (acc_text [a_type (Bare [] (bs "te"))]) 19 = Ok [(bs "text", Some (rng0 17 19, bs """text""")); (bs "button", Some (rng0 17 19, bs """button"""))] /\
  edited (utf16_doc (acc_text [a_type (Bare [] (bs "te"))])) [(rng0 17 19, bs """text""")] = acc_text [a_type (Quoted [] 34%N (bs "text"))] /\
  good_doc demo_unicode false html5_void (fill acc_ctx (acc_input [a_type (Quoted [] 34%N (bs "x te"))])) /\
  takes (bs "text") (Quoted [] 34%N (bs "x te")) 5 (Quoted [] 34%N (bs "x text")) /\
  edits_at (acc_text [a_type (Quoted [] 34%N (bs "x te"))]) 22 = Ok [(bs "text", Some (rng0 20 22, bs "text")); (bs "button", Some (rng0 20 22, bs "button"))].
Proof.
  split; [apply acc_good, acc_attrs|]. split; [apply C27_contract, ascii_utf8; reflexivity|].
  split; [apply takes_bare; [cbn; lia|cbn; intuition discriminate]|]. split; [vm_compute; reflexivity|]. split; [vm_compute; reflexivity|].
  split; [apply acc_good, acc_attrs|]. split; [|vm_compute; reflexivity].
  apply (takes_word (bs "text") [] 34%N (bs "x ") (bs "te") [] 5); [cbn; lia|apply ascii_utf8; reflexivity|apply ascii_utf8; reflexivity| | |auto|cbn; intuition discriminate].
  - intros b [<-|[<-|[]]]; reflexivity.
  - right. exists (bs "x"), 32%N. split; reflexivity.
Qed.
(** "x<ul><li>one</li><li>|</ul> end" *)
Definition closings (s : str) (o : nat) : res (list (str * option (range * str))) :=
  let d := utf16_doc s in
  do roots <- parse demo_unicode s false (get_void_elements typed_providers (bs "html"));
  do l <- do_complete demo_unicode d false true [] typed_providers (bs "html") entities None (fun m => m) roots (position_at d o);
  Ok (map (fun i => (ci_label i, ci_edit i)) l).
Example C71_auto_close_demo :
  textdoc_ok (utf16_doc typed) /\ good_doc demo_unicode false (get_void_elements typed_providers (bs "html")) (fill typed_ctx (li [])) /\
  typed = (opens (levels typed_ctx) ++ render_all (front typed_ctx) ++ start_tag (bs "li") [] [] (bs ">")) ++ back typed_ctx /\
  length (opens (levels typed_ctx) ++ render_all (front typed_ctx) ++ start_tag (bs "li") [] [] (bs ">")) = 21 /\
  closings typed 21 = Ok [(bs "</li>", Some (rng0 21 21, bs "$0</li>"))] /\ plain (bs "li") /\
  edited (utf16_doc typed) [(rng0 21 21, bs "</li>")] = render_all (fill typed_ctx (li [])).
Proof.
  split; [apply C27_contract, ascii_utf8; reflexivity|]. split; [apply typed_good; auto|]. split; [reflexivity|]. split; [reflexivity|].
  split; [vm_compute; reflexivity|]. split; [split; cbn; intuition discriminate|vm_compute; reflexivity].
Qed.
(** "<div><p>a &am|b</p></div>" *)
Definition acc_p : ctx := Inside [] (bs "div") [] [] (Inside [] (bs "p") [] [] (Here [] []) (bs "p") [] []) (bs "div") [] [].
Lemma acc_p_good s : good_text s -> good_doc demo_unicode false html5_void (fill acc_p (HText s)).
Proof.
  intros G. change (fill acc_p (HText s)) with (fill acc_ctx (HElement (bs "p") [] [] [HText s] (bs "p") [])). apply acc_inside; [reflexivity|].
  apply G_element; try name; try blanks.
  - intros [H|H]; discriminate.
  - intros IN. vm_compute in IN. repeat (destruct IN as [IN|IN]; [discriminate IN|]). exact IN.
  - attrs_tac.
  - constructor; [constructor; exact G|constructor].
  - exact I.
  - reflexivity.
Qed.
Example C71_entity_demo :
  let t := render_all (fill acc_p (HText (bs "a " ++ bs "&" ++ bs "am" ++ bs "b"))) in
  good_doc demo_unicode false html5_void (fill acc_p (HText (bs "a " ++ bs "&" ++ bs "am" ++ bs "b"))) /\
  t = bs "<div><p>a &amb</p></div>" /\ Forall alnum (bs "am") /\ hole acc_p + length (bs "a ") + 1 + length (bs "am") = 13 /\
  (do l <- edits_at t 13; Ok (length l, existsb (fun x => match x with (y, Some (r, z)) => beq y (bs "&amp;") && beq z (bs "&amp;") && (character (r_start r) =? 10) && (character (r_end r) =? 13) | _ => false end) l)) = Ok (1991, true) /\
  edited (utf16_doc t) [(rng0 10 13, bs "&amp;")] = bs "<div><p>a &amp;b</p></div>".
Proof.
  cbv zeta. split.
  { apply acc_p_good. split; [discriminate|]. split; [apply ascii_utf8; reflexivity|cbn; intuition discriminate]. }
  split; [reflexivity|]. split; [change (bs "am") with [97%N; 109%N]; repeat constructor; unfold alnum; lia|]. split; [reflexivity|]. split; vm_compute; reflexivity.
Qed.

(** ** Finding *)
(** The proposals for data attributes bring a value along even where the name already has one. Accepting one
    leaves two values, and the one that was written is lost. *)
Definition attrs_of (s : str) : res (list (option str * list (str * option str))) :=
  do r <- parse demo_unicode s false html5_void;
  Ok (map (fun n => (n_tag n, map (fun x => (fst x, Tree.a_value (snd x))) (n_attrs n))) (flat_map preorder r)).
Theorem C71_data_value_refuted :
  let t := bs "<p data-a><input data=""3"">" in
  attrs_of t = Ok [(Some (bs "p"), [(bs "data-a", None)]); (Some (bs "input"), [(bs "data", Some (bs """3"""))])] /\
  (exists l1 l2, edits_at t 21 = Ok (l1 ++ (bs "data-a", Some (rng0 17 21, bs "data-a=""$1""")) :: l2)) /\
  edited (utf16_doc t) [(rng0 17 21, bs "data-a=""""")] = bs "<p data-a><input data-a=""""=""3"">" /\
  attrs_of (bs "<p data-a><input data-a=""""=""3"">") =
    Ok [(Some (bs "p"), [(bs "data-a", None)]); (Some (bs "input"), [(bs "data-a", Some (bs """"""))])].
Proof.
  cbv zeta. split; [vm_compute; reflexivity|]. split; [eexists [_], [_]; vm_compute; reflexivity|]. split; vm_compute; reflexivity.
Qed.
Print Assumptions C71_data_value_refuted.
