(** * Scanning what was rendered: facts for C73 *)
From Verif Require Import Base BaseFacts Stream Scanner ScannerFacts ScanStep ScanComplete ScanPanic
  Tree Render RenderFacts Lexing.
From Coq Require Import ZifyBool ZifyNat ZifyN.

Section Run.
Variable U : unicode.
Variable t : str.
Variable emit : bool.
Variable cs : bool.
Variable void : list str.
Hypothesis HU : Utf8 t.
Notation norm := (norm U cs).
Notation same := (same U cs).
Notation outcome := (outcome U t emit cs).
Notation at_ := (at_ t).
Notation scan := (scan U t emit cs).

(** Steps of the scanner over given pieces. *)
Inductive trun : scanner -> list piece -> scanner -> Prop :=
| trun_nil sc : trun sc [] sc
| trun_empty sc k l sc2 : trun sc l sc2 -> trun sc ((k, []) :: l) sc2
| trun_cons sc sc1 s l sc2 :
    scan sc = Ok sc1 -> tok sc1 <> EOS -> s <> [] -> tok_off sc1 = pos sc -> tok_err sc1 = None ->
    pos sc1 = pos sc + length s -> sub t (pos sc) (pos sc1) = s ->
    trun sc1 l sc2 -> trun sc ((tok sc1, s) :: l) sc2.
Lemma trun_trans sc l sc1 l2 sc2 : trun sc l sc1 -> trun sc1 l2 sc2 -> trun sc (l ++ l2) sc2.
Proof. induction 1; cbn [app]; auto; intros; [apply trun_empty; auto|eapply trun_cons; eauto]. Qed.
Lemma one sc sc1 k s r : outcome sc sc1 -> at_ (pos sc) (s ++ r) -> tok sc1 = k -> k <> Script -> k <> EOS ->
  s <> [] -> pos sc1 = pos sc + length s -> tok_off sc1 = pos sc -> tok_err sc1 = None -> trun sc [(k, s)] sc1.
Proof.
  intros O A K N1 N2 NE P Q E. subst k. eapply trun_cons; eauto; [| |apply trun_nil].
  - apply outcome_scan; auto. left. apply A.
  - rewrite P. eapply at_sub; eauto.
Qed.
Lemma ne s (b : N) r : s = b :: r -> s <> [].
Proof. intros ->. discriminate. Qed.

(** ** Inside a start tag *)
Definition in_tag (sc : scanner) : Prop := st sc = WithinTag \/ st sc = AfterAttributeName.
Lemma enter sc b s : in_tag sc -> at_ (pos sc) (b :: s) -> is_ws b = false -> b <> EQ ->
  enter_tag t sc (set_st WithinTag sc).
Proof. apply RenderFacts.enter. Qed.
Lemma tag_space sc w s : in_tag sc -> at_ (pos sc) (w ++ s) -> blank w ->
  (forall b r, s = b :: r -> is_ws b = false) ->
  exists sc1, trun sc [(Whitespace, w)] sc1 /\ pos sc1 = pos sc + length w /\
    (w <> [] -> has_space sc1 = true) /\ st sc1 = st sc /\
    last_tag sc1 = last_tag sc /\ last_type sc1 = last_type sc.
Proof.
  intros I A W S. destruct w as [|c w].
  { exists sc. split; [apply trun_empty, trun_nil|]. cbn. auto 8. }
  assert (NE : c :: w <> []) by discriminate. set (x := c :: w) in *. clearbody x.
  pose proof (at_ws _ _ _ _ A W NE S) as K.
  pose proof (at_len _ _ _ A) as L. rewrite app_length in L.
  assert (NE' : 0 < length x) by (destruct x; [tauto|cbn; lia]).
  exists (finish (set_space true sc) (pos sc) Whitespace None (pos sc + length x) (st sc)). split; [|cbn; auto 8].
  eapply one; eauto; try discriminate.
  destruct I as [I|I].
  + eapply O_in_tag; [lia|apply ET_tag; auto|]. apply TO_ws; auto.
  + rewrite I. apply O_attr_ws; auto.
Qed.

(** One attribute *)
Lemma one_attr sc a b s : in_tag sc -> at_ (pos sc) (render_attr a ++ b :: s) -> good_attr a ->
  stops b -> (b = 47%N -> forall gap v, ha_value a <> Bare gap v) ->
  exists sc1, trun sc (lex_attr a) sc1 /\ in_tag sc1 /\ pos sc1 = pos sc + length (render_attr a) /\
    last_tag sc1 = last_tag sc /\ (~ same (ha_name a) (bs "type") -> last_type sc1 = last_type sc).
Proof.
  intros I A (G1 & G2 & G3 & G4 & G5) ST NB. unfold render_attr in *. rewrite <- !app_assoc in A.
  destruct (attr_first _ G4 G3) as (c & r & En & Wc & Ec).
  destruct (tag_space sc _ _ I A G1) as (s1 & R1 & P1 & H1 & S1 & T1 & Y1).
  { intros x y E. rewrite En in E. inversion E. subst x. auto. }
  specialize (H1 G2).
  apply at_adv in A; [|auto|apply blank_utf8; auto]. rewrite <- P1 in A.
  (* the name *)
  set (rest := render_value (ha_value a) ++ b :: s) in *.
  assert (RB : exists d rest', rest = d :: rest' /\ (stops d \/ d = 61%N)).
  { unfold rest. destruct (ha_value a) as [|gap v|gap q v]; cbn [render_value app].
    - exists b, s. auto.
    - destruct G5 as [G5 _]. destruct gap as [|d gap].
      + exists 61%N. eexists. split; [reflexivity|auto].
      + exists d. eexists. split; [reflexivity|]. left. left. rewrite blank_ws in G5. apply G5. cbn; auto.
    - destruct G5 as [G5 _]. destruct gap as [|d gap].
      + exists 61%N. eexists. split; [reflexivity|auto].
      + exists d. eexists. split; [reflexivity|]. left. left. rewrite blank_ws in G5. apply G5. cbn; auto. }
  destruct RB as (d & rest' & Er & Sd). rewrite Er in A.
  pose proof (at_attr _ _ _ _ _ A G4 G3 Sd) as AN. pose proof (made_of_utf8 _ _ G4) as Un.
  pose proof (at_sub _ _ _ _ A) as SB.
  assert (NE : 0 < length (ha_name a)) by (rewrite En; cbn; lia).
  pose proof (at_len _ _ _ A) as L. rewrite app_length in L. cbn [length] in L.
  assert (A' := A). rewrite En in A'. cbn [app] in A'.
  set (s2 := finish (set_space false (set_last_attr (Some (norm (ha_name a))) (set_st WithinTag s1)))
               (pos s1) AttributeName None (pos s1 + length (ha_name a)) AfterAttributeName).
  assert (R2 : trun s1 [(AttributeName, ha_name a)] s2).
  { eapply one; eauto; try discriminate.
    eapply O_in_tag; [lia|eapply enter; eauto; unfold in_tag; rewrite S1; auto|].
    unfold s2. rewrite <- SB at 1. change (pos s1) with (pos (set_st WithinTag s1)) at 1 2 3.
    apply TO_attr; auto. cbn [pos set_st]. eapply at_no_ws; eauto. }
  assert (A2 := A). apply at_adv in A2; auto. rewrite <- Er in A2.
  change (pos s1 + length (ha_name a)) with (pos s2) in A2.
  assert (NT : ~ same (ha_name a) (bs "type") -> opt_beq (last_attr s2) (bs "type") = false).
  { intros N. cbn [last_attr s2 finish set_space set_last_attr opt_beq]. apply beq_neq. intros E. apply N.
    unfold Render.same, ScannerFacts.norm in *. destruct cs; auto. }
  (* the rest of a value, once [gap] and '=' are read *)
  assert (VAL : forall gap v, render_value (ha_value a) = gap ++ bs "=" ++ v ->
     lex_value (ha_value a) = [(Whitespace, gap); (DelimiterAssign, bs "="); (AttributeValue, v)] ->
     blank gap -> Utf8 v ->
     (forall sc, st sc = BeforeAttributeValue -> at_ (pos sc) (v ++ b :: s) ->
        exists y, outcome sc (finish (set_space false (set_last_type y sc)) (pos sc) AttributeValue None
                              (pos sc + length v) WithinTag) /\
          (opt_beq (last_attr sc) (bs "type") = false -> y = last_type sc)) -> v <> [] ->
     exists sc1, trun s2 (lex_value (ha_value a)) sc1 /\ in_tag sc1 /\
       pos sc1 = pos s2 + length (render_value (ha_value a)) /\
       last_tag sc1 = last_tag sc /\ (~ same (ha_name a) (bs "type") -> last_type sc1 = last_type sc)).
  { intros gap v RV LX BG UV SV LV. unfold rest in A2. rewrite RV, <- !app_assoc in A2.
    assert (EXg : exists s3, trun s2 [(Whitespace, gap)] s3 /\ pos s3 = pos s2 + length gap /\ st s3 = AfterAttributeName /\
      last_tag s3 = last_tag s2 /\ last_type s3 = last_type s2 /\ last_attr s3 = last_attr s2).
    { destruct gap as [|g gap].
      - exists s2. split; [apply trun_empty, trun_nil|]. cbn. auto.
      - pose proof (at_ws _ _ _ _ A2 BG ltac:(discriminate)) as K.
        specialize (K ltac:(intros x y E; inversion E; reflexivity)).
        exists (finish (set_space true s2) (pos s2) Whitespace None (pos s2 + length (g :: gap)) AfterAttributeName).
        split; [|cbn; auto]. eapply one; eauto; try discriminate.
        apply O_attr_ws; auto. }
    destruct EXg as (s3 & R3 & P3 & S3 & T3 & Y3 & LA3).
    apply at_adv in A2; [|auto|apply blank_utf8; auto]. rewrite <- P3 in A2.
    set (s4 := finish s3 (pos s3) DelimiterAssign None (pos s3 + 1) BeforeAttributeValue).
    assert (R4 : trun s3 [(DelimiterAssign, bs "=")] s4).
    { eapply one; eauto; try discriminate. apply O_assign; auto. eapply at_first. exact A2. }
    assert (A4 := A2). apply (at_adv _ HU _ (bs "=")) in A4; [|apply u_one; reflexivity].
    change (pos s3 + length (bs "=")) with (pos s4) in A4.
    destruct (SV s4 eq_refl A4) as (y & O & Hy).
    set (s5 := finish (set_space false (set_last_type y s4)) (pos s4) AttributeValue None
                      (pos s4 + length v) WithinTag) in *.
    assert (R5 : trun s4 [(AttributeValue, v)] s5).
    { eapply one; eauto; discriminate. }
    exists s5. split.
    { rewrite LX. change (trun s2 ([(Whitespace, gap)] ++ [(DelimiterAssign, bs "=")] ++ [(AttributeValue, v)]) s5).
      eapply trun_trans; eauto. eapply trun_trans; eauto. }
    split; [left; auto|]. split.
    { cbn [pos s5 finish s4]. rewrite RV, !app_length. cbn [length bs]. lia. }
    split; [cbn [last_tag s5 finish set_space set_last_type s4]; rewrite T3; auto|].
    intros N. cbn [last_type s5 finish set_space set_last_type]. rewrite Hy.
    - cbn [last_type s4 finish]. rewrite Y3. cbn. auto.
    - cbn [last_attr s4 finish]. rewrite LA3. auto. }
  assert (JOIN : forall sc1, trun s2 (lex_value (ha_value a)) sc1 -> trun sc (lex_attr a) sc1).
  { intros sc1 R. unfold lex_attr.
    change (trun sc ([(Whitespace, ha_space a)] ++ [(AttributeName, ha_name a)] ++ lex_value (ha_value a)) sc1).
    eapply trun_trans; eauto. eapply trun_trans; eauto. }
  rewrite !app_length, P1 in *.
  destruct (ha_value a) as [|gap v|gap q v] eqn:V.
  - exists s2. split; [apply JOIN, trun_nil|]. split; [right; auto|].
    cbn [render_value length pos s2 finish]. split; [lia|]. split; cbn; auto.
  - destruct G5 as (G5 & G6 & G7).
    destruct (VAL gap v) as (s6 & R6 & H6); auto.
    + eapply made_of_utf8; eauto.
    + intros sc0 S0 A0. exists (new_type sc0 (sub t (pos sc0) (pos sc0 + length v))). split.
      * apply O_value_plain; auto.
        -- destruct (bare_first _ G7 G6) as (x & y & E & Wx & _). rewrite E in A0. eapply at_no_ws; eauto.
        -- eapply at_plain; eauto. destruct ST as [ST|[ST|ST]]; auto. exfalso. eapply NB; eauto.
      * unfold new_type. intros ->. auto.
    + exists s6. split; [apply JOIN; auto|].
      destruct H6 as (H61 & H62 & H6). split; auto. split; [|auto].
      rewrite H62. cbn [pos s2 finish]. lia.
  - destruct G5 as (G5 & G6 & G7 & G8).
    destruct (VAL gap ([q] ++ v ++ [q])) as (s6 & R6 & H6); auto; try discriminate.
    + apply u_app; [apply u_one; lia|]. apply u_app; auto. apply u_one; lia.
    + intros sc0 S0 A0. rewrite <- !app_assoc in A0.
      pose proof (at_quoted _ _ _ _ _ A0 G6 G8) as Q.
      set (e := pos sc0 + length ([q] ++ v ++ [q])) in *.
      exists (new_type sc0 (if e - 1 <? pos sc0 + 1 then sub t (e - 1) (pos sc0 + 1)
                            else sub t (pos sc0 + 1) (e - 1))). split.
      * apply O_value_quoted; auto. intros _.
        assert (Q1 : Utf8 [q]) by (apply u_one; lia).
        pose proof (at_adv _ HU _ _ _ A0 Q1) as A5. pose proof (at_adv _ HU _ _ _ A5 G7) as A6.
        split; [apply Bd_boundary, A5|].
        replace (e - 1) with (pos sc0 + length [q] + length v); [apply Bd_boundary, A6|].
        unfold e. rewrite !app_length. cbn [length]. lia.
      * unfold new_type. intros ->. auto.
    + exists s6. split; [apply JOIN; auto|].
      destruct H6 as (H61 & H62 & H6). split; auto. split; [|auto].
      rewrite H62. cbn [pos s2 finish]. lia.
Qed.

Lemma attrs_run l : forall sc b s, in_tag sc -> at_ (pos sc) (render_attrs l ++ b :: s) ->
  Forall good_attr l ->
  stops b -> (b = 47%N -> forall l' a gap v, l = l' ++ [a] -> ha_value a <> Bare gap v) ->
  exists sc1, trun sc (flat_map lex_attr l) sc1 /\ in_tag sc1 /\ pos sc1 = pos sc + length (render_attrs l) /\
    last_tag sc1 = last_tag sc /\
    (Forall (fun a => ~ same (ha_name a) (bs "type")) l -> last_type sc1 = last_type sc).
Proof.
  induction l as [|a l IH]; intros sc b s I A G ST NB.
  - exists sc. split; [apply trun_nil|]. cbn. auto.
  - inversion G as [|? ? Ga Gl]; subst.
    cbn [render_attrs flat_map] in *. change (flat_map render_attr l) with (render_attrs l) in *.
    rewrite <- app_assoc in A.
    assert (EX : exists c r, render_attrs l ++ b :: s = c :: r /\ stops c /\
                   (c = 47%N -> l = [])).
    { destruct l as [|a2 l].
      - exists b, s. auto.
      - inversion Gl as [|? ? Ga2 _]; subst. destruct Ga2 as (B1 & B2 & _).
        destruct (ha_space a2) as [|c r] eqn:E; [tauto|]. rewrite blank_ws in B1.
        exists c. eexists. split; [cbn [render_attrs flat_map]; unfold render_attr at 1; rewrite E; reflexivity|].
        assert (W : is_ws c = true) by (apply B1; cbn; auto).
        split; [left; auto|]. intros ->. discriminate. }
    destruct EX as (c & r & E & Sc & N47). rewrite E in A.
    destruct (one_attr sc a c r I A Ga Sc) as (s1 & R1 & I1 & P1 & T1 & Y1).
    { intros C gap v. specialize (N47 C). subst l. cbn in E. inversion E. subst c. eapply NB with (l' := []); auto. }
    assert (UA : Utf8 (render_attr a)).
    { replace (render_attr a) with (render_attrs [a]) by (cbn; apply app_nil_r). apply attrs_utf8. auto. }
    apply at_adv in A; auto. rewrite <- P1, <- E in A.
    destruct (IH s1 b s I1 A Gl) as (s2 & R2 & I2 & P2 & T2 & Y2); auto.
    { intros B l' x gap v El. apply NB with (l' := a :: l'); auto. rewrite El. auto. }
    exists s2. split; [eapply trun_trans; eauto|]. split; auto. split; [rewrite P2, P1, app_length; lia|].
    split; [congruence|].
    intros H. inversion H; subst. rewrite Y2, Y1; auto.
Qed.

(** ** Start tags *)
Lemma start_run sc name attrs pad b s : content_like t sc ->
  at_ (pos sc) (bs "<" ++ name ++ render_attrs attrs ++ pad ++ b :: s) ->
  good_name U name -> good_attrs attrs -> blank pad -> b = 62%N \/ b = 47%N ->
  (b = 47%N -> pad = [] -> forall l a gap v, attrs = l ++ [a] -> ha_value a <> Bare gap v) ->
  exists sc1, trun sc ([(StartTagOpen, bs "<"); (StartTag, name)] ++ flat_map lex_attr attrs ++ [(Whitespace, pad)]) sc1 /\
    in_tag sc1 /\ at_ (pos sc1) (b :: s) /\
    pos sc1 = pos sc + length (bs "<" ++ name ++ render_attrs attrs ++ pad) /\
    last_tag sc1 = Some (norm name) /\
    (Forall (fun a => ~ same (ha_name a) (bs "type")) attrs -> last_type sc1 = None).
Proof.
  intros CL A GN [GA1 GA2] BP HB NB. destruct (name_first_byte _ _ GN) as (c & r & En & Wc & N1 & N2 & N3 & N4 & N5).
  destruct (good_name_utf8 _ _ GN) as [Un NE].
  pose proof (at_len _ _ _ A) as L. rewrite !app_length in L. cbn [length bs] in L.
  assert (A1 := A). apply at_adv in A1; [|auto|apply u_one; reflexivity]. change (length (bs "<")) with 1 in A1.
  (* '<' *)
  set (s1 := finish sc (pos sc) StartTagOpen None (pos sc + 1) AfterOpeningStartTag).
  assert (Nx : nth_error t (pos sc + 1) = Some c).
  { eapply at_first. rewrite En in A1. exact A1. }
  assert (R1 : trun sc [(StartTagOpen, bs "<")] s1).
  { eapply one; eauto; try discriminate. apply O_start_tag_open; auto.
    + eapply at_first. exact A.
    + destruct A as [-> _]. rewrite En. cbn [app bs is_prefix]. destruct (N.eqb_spec (N_of_ascii "!") c) as [Q|Q]; auto.
      exfalso. apply N1. rewrite <- Q. reflexivity.
    + rewrite Nx. unfold SLASH; congruence.
    + destruct A1 as [-> _]. rewrite En. cbn [app m_doctype].
      replace (N.eqb c 33) with false by lia. reflexivity. }
  (* the name *)
  set (rest := render_attrs attrs ++ pad ++ b :: s) in *.
  assert (EXd : exists d rest', rest = d :: rest' /\ stops d).
  { unfold rest. destruct attrs as [|a attrs].
    - cbn. destruct pad as [|d pad].
      + exists b, s. split; auto. unfold stops. destruct HB as [-> | ->]; auto.
      + exists d. eexists. split; [reflexivity|]. left. rewrite blank_ws in BP. apply BP. cbn; auto.
    - inversion GA1 as [|? ? Ga _]; subst. destruct Ga as (B1 & B2 & _).
      destruct (ha_space a) as [|d w] eqn:E; [tauto|]. rewrite blank_ws in B1. exists d.
      eexists. split; [cbn [render_attrs flat_map]; unfold render_attr at 1; rewrite E; reflexivity|].
      left. apply B1. cbn; auto. }
  destruct EXd as (d & rest' & Ed & Sd). rewrite Ed in A1.
  pose proof (at_elem _ _ _ _ _ _ A1 GN Sd) as EN. pose proof (at_sub _ _ _ _ A1) as SB.
  assert (LN : 0 < length name) by (rewrite En; cbn; lia).
  set (s2 := finish (set_space false (set_last_tag (Some (norm name)) (reset s1))) (pos s1) StartTag None
                    (pos s1 + length name) WithinTag).
  assert (R2 : trun s1 [(StartTag, name)] s2).
  { eapply one; eauto; try discriminate.
    unfold s2. rewrite <- SB at 1. change (pos sc + 1) with (pos s1). apply O_start_tag; auto. }
  apply at_adv in A1; auto. rewrite <- Ed in A1. change (pos sc + 1 + length name) with (pos s2) in A1.
  (* the attributes *)
  unfold rest in A1.
  assert (EXe : exists e rest2, pad ++ b :: s = e :: rest2 /\ stops e /\ (e = 47%N -> pad = [] /\ e = b)).
  { destruct pad as [|e pad].
    - exists b, s. split; auto. split; auto. unfold stops. destruct HB as [-> | ->]; auto.
    - exists e. eexists. split; [reflexivity|]. rewrite blank_ws in BP.
      assert (W : is_ws e = true) by (apply BP; cbn; auto). split; [left; auto|]. intros ->. discriminate. }
  destruct EXe as (e & rest2 & Ee & Se & N47). rewrite Ee in A1.
  destruct (attrs_run attrs s2 e rest2) as (s3 & R3 & I3 & P3 & T3 & Y3); auto.
  { left. auto. }
  { intros Q l a gap v. destruct (N47 Q) as [-> ->]. apply NB; auto. }
  apply at_adv in A1; [|auto|apply attrs_utf8; auto]. rewrite <- Ee, <- P3 in A1.
  destruct (tag_space s3 pad (b :: s) I3 A1 BP) as (s4 & R4 & P4 & _ & S4 & T4 & Y4).
  { intros x y E. inversion E. subst x. destruct HB as [-> | ->]; reflexivity. }
  apply at_adv in A1; [|auto|apply blank_utf8; auto]. rewrite <- P4 in A1.
  exists s4. split.
  { change (trun sc ([(StartTagOpen, bs "<")] ++ [(StartTag, name)] ++ flat_map lex_attr attrs ++ [(Whitespace, pad)]) s4).
    eapply trun_trans; eauto; eapply trun_trans; eauto; eapply trun_trans; eauto. }
  split; [unfold in_tag; rewrite S4; auto|]. split; auto. split.
  { rewrite P4, P3, !app_length. cbn [pos s2 s1 finish length bs]. lia. }
  split; [rewrite T4, T3; auto|].
  intros H. rewrite Y4, Y3; auto.
Qed.

(** ** End tags *)
Lemma end_run sc close pad s : content_like t sc -> at_ (pos sc) (end_tag close pad ++ s) ->
  good_name U close -> blank pad ->
  exists sc1, trun sc (lex_end close pad) sc1 /\ st sc1 = WithinContent /\ pos sc1 = pos sc + length (end_tag close pad).
Proof.
  intros CL A GN BP. destruct (name_first_byte _ _ GN) as (c & r & En & Wc & N1 & N2 & N3 & N4 & N5).
  destruct (good_name_utf8 _ _ GN) as [Un NE]. unfold end_tag in A. rewrite <- !app_assoc in A.
  pose proof (at_len _ _ _ A) as L. rewrite !app_length in L. cbn [length bs] in L.
  assert (A1 := A). apply at_adv in A1; [|auto|apply ascii_utf8; reflexivity]. change (length (bs "</")) with 2 in A1.
  set (s1 := finish sc (pos sc) EndTagOpen None (pos sc + 2) AfterOpeningEndTag).
  assert (R1 : trun sc [(EndTagOpen, bs "</")] s1).
  { eapply one; eauto; try discriminate. apply O_end_tag_open; auto.
    + eapply at_first. exact A.
    + rewrite (at_nth _ _ _ _ A). reflexivity. }
  assert (EXd : exists d rest', pad ++ bs ">" ++ s = d :: rest' /\ stops d).
  { destruct pad as [|d pad].
    - exists 62%N, s. split; auto. unfold stops; auto.
    - exists d. eexists. split; [reflexivity|]. left. rewrite blank_ws in BP. apply BP. cbn; auto. }
  destruct EXd as (d & rest' & Ed & Sd). rewrite Ed in A1.
  pose proof (at_elem _ _ _ _ _ _ A1 GN Sd) as EN.
  assert (LN : 0 < length close) by (rewrite En; cbn; lia).
  set (s2 := finish s1 (pos s1) EndTag None (pos s1 + length close) WithinEndTag).
  assert (R2 : trun s1 [(EndTag, close)] s2).
  { eapply one; eauto; try discriminate. apply O_end_tag; auto. }
  apply at_adv in A1; auto. rewrite <- Ed in A1. change (pos sc + 2 + length close) with (pos s2) in A1.
  assert (EX3 : exists s3, trun s2 [(Whitespace, pad)] s3 /\ pos s3 = pos s2 + length pad /\ st s3 = WithinEndTag).
  { destruct pad as [|g pad].
    - exists s2. split; [apply trun_empty, trun_nil|]. cbn. auto.
    - pose proof (at_ws _ _ _ _ A1 BP ltac:(discriminate)) as K.
      specialize (K ltac:(intros x y E; inversion E; reflexivity)).
      exists (finish s2 (pos s2) Whitespace None (pos s2 + length (g :: pad)) WithinEndTag).
      split; [|cbn; auto]. eapply one; eauto; try discriminate. apply O_end_tag_ws2; auto. }
  destruct EX3 as (s3 & R3 & P3 & S3). apply at_adv in A1; [|auto|apply blank_utf8; auto]. rewrite <- P3 in A1.
  set (s4 := finish s3 (pos s3) EndTagClose None (pos s3 + 1) WithinContent).
  assert (R4 : trun s3 [(EndTagClose, bs ">")] s4).
  { eapply one; eauto; try discriminate. apply O_end_tag_close; auto. eapply at_first. exact A1. }
  exists s4. split.
  { unfold lex_end. change (trun sc ([(EndTagOpen, bs "</")] ++ [(EndTag, close)] ++ [(Whitespace, pad)] ++ [(EndTagClose, bs ">")]) s4).
    eapply trun_trans; eauto; eapply trun_trans; eauto; eapply trun_trans; eauto. }
  split; auto.
  unfold end_tag. cbn [pos s4 finish]. rewrite P3, !app_length. cbn [pos s2 s1 finish length bs]. lia.
Qed.

(** ** Start tags with their '>' *)
Lemma close_run sc s : in_tag sc -> at_ (pos sc) (62%N :: s) ->
  exists sc1, trun sc [(StartTagClose, bs ">")] sc1 /\ pos sc1 = pos sc + 1 /\ st sc1 = after_close sc.
Proof.
  intros I A.
  assert (O : outcome sc (finish (no_attr t (set_st WithinTag sc)) (pos sc) StartTagClose None (pos sc + 1)
                                 (after_close (set_st WithinTag sc)))).
  { eapply O_in_tag.
    - pose proof (at_len _ _ _ A) as L. cbn in L. lia.
    - apply (enter sc 62%N s I A); [reflexivity|discriminate].
    - apply (TO_close U t emit cs (set_st WithinTag sc)). eapply at_first; eauto. }
  eexists. split; [eapply one; [exact O|exact A|..]; try reflexivity; discriminate|]. split; reflexivity.
Qed.
Lemma open_run sc name attrs pad s : content_like t sc ->
  at_ (pos sc) (start_tag name attrs pad (bs ">") ++ s) ->
  good_name U name -> good_attrs attrs -> blank pad ->
  exists sc1, trun sc (lex_start name attrs pad (StartTagClose, bs ">")) sc1 /\
    pos sc1 = pos sc + length (start_tag name attrs pad (bs ">")) /\
    (~ is_raw U cs name -> st sc1 = WithinContent) /\
    (norm name = bs "script" -> Forall (fun a => ~ same (ha_name a) (bs "type")) attrs -> st sc1 = WithinScriptContent) /\
    (norm name = bs "style" -> st sc1 = WithinStyleContent).
Proof.
  intros CL A G1 G2 G3. unfold start_tag in A. rewrite <- !app_assoc in A.
  destruct (start_run sc name attrs pad 62%N s CL A G1 G2 G3) as (s1 & R1 & I1 & A1 & P1 & T1 & Y1); auto.
  { discriminate. }
  destruct (close_run s1 s I1 A1) as (s2 & R2 & K3 & K4).
  exists s2. split.
  { unfold lex_start. pose proof (trun_trans _ _ _ _ _ R1 R2) as R. rewrite <- !app_assoc in R. exact R. }
  split; [unfold start_tag; rewrite K3, P1, !app_length; cbn [length bs]; lia|]. split.
  { intros N. rewrite K4. eapply after_plain; eauto. }
  split.
  { intros E F. rewrite K4. unfold after_close. rewrite T1, E, (Y1 F). reflexivity. }
  intros E. rewrite K4. unfold after_close. rewrite T1, E. reflexivity.
Qed.

(** ** One item *)
Definition item_runs (h : html) : Prop := forall sc s, good U cs void h -> st sc = WithinContent ->
  at_ (pos sc) (render h ++ s) ->
  ((exists x, h = HText x) -> s = [] \/ exists s', s = 60%N :: s') ->
  exists sc1, trun sc (lex h) sc1 /\ st sc1 = WithinContent /\ pos sc1 = pos sc + length (render h).
Definition list_runs (l : list html) : Prop := forall sc s, Forall (good U cs void) l -> no_split l ->
  st sc = WithinContent -> at_ (pos sc) (render_all l ++ s) -> s = [] \/ (exists s', s = 60%N :: s') ->
  exists sc1, trun sc (flat_map lex l) sc1 /\ st sc1 = WithinContent /\ pos sc1 = pos sc + length (render_all l).

Lemma list_from_items l : Forall item_runs l -> list_runs l.
Proof.
  induction 1 as [|h l H _ IH]; intros sc s G NS S A E.
  - exists sc. split; [apply trun_nil|]. cbn. auto.
  - inversion G as [|? ? Gh Gl]; subst. cbn [render_all flat_map] in *.
    change (flat_map render l) with (render_all l) in *. rewrite <- app_assoc in A.
    destruct (H sc (render_all l ++ s) Gh S A) as (s1 & R1 & S1 & P1).
    { intros [x ->]. destruct l as [|h2 l]; [auto|]. inversion Gl as [|? ? G2 _]; subst.
      destruct (render_lt _ _ _ _ G2) as [[y ->]|(r & R)]; [destruct NS|].
      right. cbn [render_all flat_map]. rewrite R. eexists. reflexivity. }
    apply at_adv in A; [|auto|eapply render_utf8; eauto]. rewrite <- P1 in A.
    assert (NS' : no_split l).
    { cbn in NS. destruct h; auto. destruct l as [|h2 l]; auto. destruct h2; auto. destruct NS. }
    destruct (IH s1 s Gl NS' S1 A E) as (s2 & R2 & S2 & P2).
    exists s2. split; [eapply trun_trans; eauto|]. split; auto. rewrite app_length. lia.
Qed.

Lemma text_item s : item_runs (HText s).
Proof.
  intros sc r G S A E. inversion G as [x (NE & _ & NL)| | | | | | |]; subst. cbn [render] in *.
  assert (L := at_len _ _ _ A). rewrite app_length in L.
  assert (LS : 0 < length s) by (destruct s; [tauto|cbn; lia]).
  exists (finish sc (pos sc) Content None (pos sc + length s) WithinContent).
  split; [|cbn; auto].
  eapply one; eauto; try discriminate.
  apply O_content; auto; [lia| |].
  + destruct s as [|b s]; [tauto|]. rewrite (at_first t _ b (s ++ r)) by (exact A).
    intros Q. inversion Q. apply NL. cbn; auto.
  + repeat split; try lia.
    * intros i I1 I2 Q. apply NL. replace i with (pos sc + (i - pos sc)) in Q by lia.
      rewrite (at_nth _ _ _ _ A), nth_error_app1 in Q by lia. eapply nth_error_In; eauto.
    * destruct E as [-> |[s' ->]]; [eauto|cbn in L; lia|].
      right. rewrite (at_nth _ _ _ _ A), nth_error_app2, Nat.sub_diag by lia. auto.
Qed.

Lemma comment_item s : item_runs (HComment s).
Proof.
  intros sc r G S A _. inversion G as [|x Us NO| | | | | |]; subst. cbn [render] in *. rewrite <- !app_assoc in A.
  assert (L := at_len _ _ _ A). rewrite !app_length in *. cbn [length bs] in L.
  assert (A1 := A). apply at_adv in A1; auto; [|apply ascii_utf8; reflexivity].
  set (s1 := finish sc (pos sc) StartCommentTag None (pos sc + 4) WithinComment).
  assert (R1 : trun sc [(StartCommentTag, bs "<!--")] s1).
  { eapply one; eauto; try discriminate. apply O_start_comment; [left; auto|]. eapply at_prefix. exact A. }
  change (pos sc + length (bs "<!--")) with (pos s1) in A1.
  assert (EX : exists s2, trun s1 [(Comment, s)] s2 /\ pos s2 = pos s1 + length s /\ st s2 = WithinComment).
  { destruct s as [|b s'] eqn:Es; [exists s1; split; [apply trun_empty, trun_nil|cbn; auto]|]. rewrite <- Es in *.
    assert (LS : 0 < length s) by (rewrite Es; cbn; lia).
    exists (finish s1 (pos s1) Comment None (pos s1 + length s) WithinComment). split; [|cbn; auto].
    assert (NP : forall i, i < length s -> is_prefix (bs "-->") (skipn (pos s1 + i) t) = false).
    { intros i I. rewrite (at_skip _ _ _ i A1). apply no_straddle_comment; auto. }
    assert (PR : is_prefix (bs "-->") (skipn (pos s1 + length s) t) = true).
    { rewrite (at_skip _ _ _ _ A1), skipn_app, skipn_all, Nat.sub_diag. apply is_prefix_spec. eexists. reflexivity. }
    eapply one; eauto; try discriminate; [|eapply ne; eauto].
    apply O_comment; auto.
    + cbn [pos s1 finish]. lia.
    + rewrite <- (Nat.add_0_r (pos s1)). apply NP. lia.
    + split; [lia|]. split; [cbn [pos s1 finish]; lia|]. split; [|auto].
      intros i I1 I2. replace i with (pos s1 + (i - pos s1)) by lia. apply NP. lia. }
  destruct EX as (s2 & R2 & P2 & S2). apply at_adv in A1; auto. rewrite <- P2 in A1.
  exists (finish s2 (pos s2) EndCommentTag None (pos s2 + 3) WithinContent).
  split.
  - cbn [lex]. change (trun sc ([(StartCommentTag, bs "<!--")] ++ [(Comment, s)] ++ [(EndCommentTag, bs "-->")])
      (finish s2 (pos s2) EndCommentTag None (pos s2 + 3) WithinContent)).
    eapply trun_trans; eauto. eapply trun_trans; eauto. eapply one; eauto; try discriminate.
    apply O_end_comment; auto. eapply at_prefix; eauto.
  - split; auto. cbn [pos finish]. rewrite P2. cbn [pos s1 finish length bs]. lia.
Qed.

Lemma doctype_item w s : item_runs (HDoctype w s).
Proof.
  intros sc r G S A _. inversion G as [| |x y W Us NO| | | | |]; subst. cbn [render] in *. rewrite <- !app_assoc in A.
  assert (LW : length w = 7) by (rewrite <- (map_length ascii_lower), W; auto).
  assert (L := at_len _ _ _ A). rewrite !app_length in *. cbn [length bs] in L.
  assert (A0 := A). apply (at_adv t HU _ (bs "<") ([33%N] ++ w ++ s ++ bs ">" ++ r)) in A0; [|apply u_one; reflexivity].
  assert (A1 := A). rewrite app_assoc in A1. assert (A2 := A1).
  apply at_adv in A1; auto; [|apply u_app; [apply ascii_utf8; reflexivity|apply word_utf8; auto]].
  set (s1 := finish sc (pos sc) StartDoctypeTag None (pos sc + 9) WithinDoctype).
  assert (R1 : trun sc [(StartDoctypeTag, bs "<!" ++ w)] s1).
  { eapply one; eauto; try discriminate.
    - apply O_start_doctype; [left; auto|eapply at_first; exact A|apply Bd_boundary, A0|].
      destruct A0 as [A0 _]. change (length (bs "<")) with 1 in A0. rewrite A0. cbn [app m_doctype].
      rewrite firstn_app. replace (7 - length w) with 0 by lia. rewrite firstn_O, app_nil_r, (firstn_all2 w), W by lia. reflexivity.
    - cbn [pos s1 finish]. rewrite app_length. cbn [length bs]. lia. }
  replace (pos sc + length (bs "<!" ++ w)) with (pos s1) in A1 by (cbn [pos s1 finish]; rewrite app_length; cbn [length bs]; lia).
  assert (EX : exists s2, trun s1 [(Doctype, s)] s2 /\ pos s2 = pos s1 + length s /\ st s2 = WithinDoctype).
  { destruct s as [|b s'] eqn:Es; [exists s1; split; [apply trun_empty, trun_nil|cbn; auto]|]. rewrite <- Es in *.
    assert (LS : 0 < length s) by (rewrite Es; cbn; lia).
    exists (finish s1 (pos s1) Doctype None (pos s1 + length s) WithinDoctype). split; [|cbn; auto].
    assert (NP : forall i, i < length s -> nth_error t (pos s1 + i) <> Some GT).
    { intros i I. rewrite (at_nth _ _ _ i A1), nth_error_app1 by lia. intros Q. apply NO. eapply nth_error_In; eauto. }
    eapply one; eauto; try discriminate; [|eapply ne; eauto].
    apply O_doctype; auto.
    + cbn [pos s1 finish]. lia.
    + rewrite <- (Nat.add_0_r (pos s1)). apply NP. lia.
    + split; [lia|]. split; [cbn [pos s1 finish]; lia|]. split.
      * intros i I1 I2. replace i with (pos s1 + (i - pos s1)) by lia. apply NP. lia.
      * right. rewrite (at_nth _ _ _ _ A1), nth_error_app2, Nat.sub_diag by lia. reflexivity. }
  destruct EX as (s2 & R2 & P2 & S2). apply at_adv in A1; auto. rewrite <- P2 in A1.
  exists (finish s2 (pos s2) EndDoctypeTag None (pos s2 + 1) WithinContent).
  split.
  - cbn [lex]. change (trun sc ([(StartDoctypeTag, bs "<!" ++ w)] ++ [(Doctype, s)] ++ [(EndDoctypeTag, bs ">")])
      (finish s2 (pos s2) EndDoctypeTag None (pos s2 + 1) WithinContent)).
    eapply trun_trans; eauto. eapply trun_trans; eauto. eapply one; eauto; try discriminate.
    apply O_end_doctype; auto. eapply at_first. exact A1.
  - split; auto. cbn [pos finish]. rewrite P2. cbn [pos s1 finish length bs]. lia.
Qed.

Lemma element_item name attrs pad body close pad2 : Forall item_runs body ->
  item_runs (HElement name attrs pad body close pad2).
Proof.
  intros HB sc r G S A _. inversion G as [| | |? ? ? ? ? ? G1 G2 G3 G4 G5 G6 G7 G8 G9 G10| | | |]; subst. cbn [render] in *.
  change (flat_map render body) with (render_all body) in *. rewrite <- !app_assoc in A.
  destruct (open_run sc name attrs pad _ (or_introl S) A G1 G4 G5) as (s1 & R1 & P1 & S1 & _ & _). specialize (S1 G2).
  apply at_adv in A; auto; [|apply start_utf8 with (U := U); auto; apply u_one; reflexivity]. rewrite <- P1 in A.
  destruct (list_from_items body HB s1 (end_tag close pad2 ++ r) G6 G7 S1 A) as (s2 & R2 & S2 & P2).
  { right. eexists. reflexivity. }
  apply at_adv in A; auto.
  2:{ clear - G6 HU. induction G6; [apply u_nil|]. cbn [render_all flat_map]. apply u_app; auto.
      eapply render_utf8; eauto. }
  rewrite <- P2 in A.
  destruct (end_run s2 close pad2 r (or_introl S2) A G8 G10) as (s3 & R3 & S3 & P3).
  exists s3. split; [cbn [lex]; eapply trun_trans; eauto; eapply trun_trans; eauto|]. split; auto.
  rewrite !app_length; lia.
Qed.

Lemma lt_free m : (forall j, 0 < j -> j < length m -> nth_error m j <> Some 60%N) ->
  forall j, 0 < j -> nth_error m j <> Some 60%N.
Proof.
  intros H j J. destruct (Nat.lt_ge_cases j (length m)); auto. rewrite (proj2 (nth_error_None _ _)); [discriminate|auto].
Qed.

Lemma script_item attrs pad s pad2 : item_runs (HRaw (bs "script") attrs pad s pad2) .
Proof.
  intros sc r G S A _. cbn [render] in A. rewrite <- !app_assoc in A.
  inversion G as [| | | |? ? ? ? G1 G2 G3 G4 G5 G6 G7 G8 G9 G10 | | |]; subst.
  destruct (open_run sc _ attrs pad _ (or_introl S) A (script_name U) G2 G3) as (s1 & R1 & P1 & _ & S1 & _).
  assert (NS : norm (bs "script") = bs "script") by (unfold ScannerFacts.norm; destruct cs; reflexivity).
  specialize (S1 NS G4).
  apply at_adv in A; auto; [|apply start_utf8 with (U := U); auto; [apply script_name|apply u_one; reflexivity]].
  rewrite <- P1 in A.
  assert (PE : is_prefix (bs "</script") (skipn (pos s1 + length s) t) = true).
  { rewrite (at_skip _ _ _ _ A), skipn_app, skipn_all, Nat.sub_diag. apply is_prefix_spec.
    exists (pad2 ++ bs ">" ++ r). unfold end_tag. rewrite <- !app_assoc. reflexivity. }
  assert (SR : script_run t 1 (pos s1) (pos s1 + length s)).
  { apply script_run_skip with (p' := pos s1 + length s); [lia| |apply SR_close; [discriminate|auto]].
    intros i I1 I2. replace i with (pos s1 + (i - pos s1)) by lia.
    pose proof (at_len _ _ _ A) as L. rewrite app_length in L.
    split; [lia|]. rewrite !(at_skip _ _ _ _ A).
    assert (NM : forall m, ~ occurs m s -> (forall j, 0 < j -> j < length m -> nth_error m j <> Some 60%N) ->
       is_prefix m (skipn (i - pos s1) (s ++ end_tag (bs "script") pad2 ++ r)) = false).
    { intros m N M. unfold end_tag. rewrite <- !app_assoc. apply (no_straddle m s (bs "/script" ++ pad2 ++ bs ">" ++ r)); auto; [|lia].
      apply lt_free; auto. }
    repeat split; apply NM; auto; intros j J1 J2; cbn [length bs] in J2;
      do 9 (destruct j as [|j]; [first [lia|discriminate]|]); lia. }
  assert (EX : exists s2, trun s1 [(Script, s)] s2 /\ pos s2 = pos s1 + length s /\ content_like t s2).
  { destruct s as [|b s'] eqn:Es.
    - exists s1. split; [apply trun_empty, trun_nil|]. split; [cbn; lia|]. right. left. split; auto.
      cbn [length] in SR. rewrite Nat.add_0_r in SR. auto.
    - rewrite <- Es in *. assert (LS : 0 < length s) by (rewrite Es; cbn; lia).
      exists (finish s1 (pos s1) Script None (pos s1 + length s) WithinContent).
      split; [|cbn; split; auto; left; auto].
      pose proof (at_len _ _ _ A) as L. rewrite app_length in L.
      assert (LE : 0 < length (end_tag (bs "script") pad2 ++ r)) by (cbn; lia).
      assert (SC : scan s1 = Ok (finish s1 (pos s1) Script None (pos s1 + length s) WithinContent)).
      { rewrite scan_internal by auto. unfold internal_scan. rewrite S1. unfold scan_script. rewrite eos_or_go by lia.
        destruct (script_loop_spec t HU (length t) 1 (pos s1) (proj2 A) ltac:(lia)) as (fin & q & E1 & E2 & E3).
        rewrite E1. cbn [bind]. assert (q = pos s1 + length s) by (eapply script_run_det; eauto). subst q.
        destruct fin; [specialize (E3 eq_refl); lia|]. replace (pos s1 <? pos s1 + length s) with true by lia. reflexivity. }
      apply (trun_cons s1 _ s [] _ SC); auto; [discriminate|eapply ne; eauto| |apply trun_nil].
      cbn [pos finish]. eapply at_sub; eauto. }
  destruct EX as (s2 & R2 & P2 & CL). apply at_adv in A; auto. rewrite <- P2 in A.
  destruct (end_run s2 (bs "script") pad2 r CL A (script_name U) G10) as (s3 & R3 & S3 & P3).
  exists s3. split; [cbn [lex]; eapply trun_trans; eauto; eapply trun_trans; eauto|]. split; auto.
  cbn [render]. rewrite !app_length; lia.
Qed.

Lemma style_item attrs pad s pad2 : item_runs (HRaw (bs "style") attrs pad s pad2) .
Proof.
  intros sc r G S A _. cbn [render] in A. rewrite <- !app_assoc in A.
  inversion G as [| | | | |? ? ? ? G1 G2 G3 G5 G6 G10| |]; subst.
  destruct (open_run sc _ attrs pad _ (or_introl S) A (style_name U) G2 G3) as (s1 & R1 & P1 & _ & _ & S1).
  assert (NS : norm (bs "style") = bs "style") by (unfold ScannerFacts.norm; destruct cs; reflexivity).
  specialize (S1 NS).
  apply at_adv in A; auto; [|apply start_utf8 with (U := U); auto; [apply style_name|apply u_one; reflexivity]].
  rewrite <- P1 in A.
  assert (PE : is_prefix (bs "</style") (skipn (pos s1 + length s) t) = true).
  { rewrite (at_skip _ _ _ _ A), skipn_app, skipn_all, Nat.sub_diag. apply is_prefix_spec.
    exists (pad2 ++ bs ">" ++ r). unfold end_tag. rewrite <- !app_assoc. reflexivity. }
  pose proof (at_len _ _ _ A) as L. rewrite app_length in L.
  assert (FS : first_str t (pos s1) (bs "</style") (pos s1 + length s)).
  { split; [lia|]. split; [lia|]. split; [|auto].
    intros i I1 I2. replace i with (pos s1 + (i - pos s1)) by lia. rewrite !(at_skip _ _ _ _ A).
    unfold end_tag. rewrite <- !app_assoc. apply (no_straddle _ s (bs "/style" ++ pad2 ++ bs ">" ++ r)); auto; [|lia].
    apply lt_free. intros j J1 J2. cbn [length bs] in J2.
    do 8 (destruct j as [|j]; [first [lia|discriminate]|]); lia. }
  assert (EX : exists s2, trun s1 [(Styles, s)] s2 /\ pos s2 = pos s1 + length s /\ content_like t s2).
  { destruct s as [|b s'] eqn:Es.
    - exists s1. split; [apply trun_empty, trun_nil|]. split; [cbn; lia|]. right. right. split; auto.
      cbn [length] in PE. rewrite Nat.add_0_r in PE. auto.
    - rewrite <- Es in *. assert (LS : 0 < length s) by (rewrite Es; cbn; lia).
      exists (finish s1 (pos s1) Styles None (pos s1 + length s) WithinContent).
      split; [|cbn; split; auto; left; auto].
      eapply one; eauto; try discriminate; [|eapply ne; eauto]. apply O_style; auto. lia. }
  destruct EX as (s2 & R2 & P2 & CL). apply at_adv in A; auto. rewrite <- P2 in A.
  destruct (end_run s2 (bs "style") pad2 r CL A (style_name U) G10) as (s3 & R3 & S3 & P3).
  exists s3. split; [cbn [lex]; eapply trun_trans; eauto; eapply trun_trans; eauto|]. split; auto.
  cbn [render]. rewrite !app_length; lia.
Qed.

Lemma void_item name attrs pad : item_runs (HVoid name attrs pad).
Proof.
  intros sc r G S A _. cbn [render lex] in *.
  inversion G as [| | | | | |? ? ? G1 G2 G3 G4 G5|]; subst.
  destruct (open_run sc name attrs pad r (or_introl S) A G1 G4 G5) as (s1 & R1 & P1 & S1 & _ & _).
  exists s1. auto.
Qed.

Lemma self_item name attrs pad : item_runs (HSelf name attrs pad).
Proof.
  intros sc r G S A _. cbn [render] in A. unfold start_tag in A. rewrite <- !app_assoc in A.
  inversion G as [| | | | | | |? ? ? G1 G2 G3 G4]; subst.
  destruct (start_run sc name attrs pad 47%N (62%N :: r) (or_introl S) A G1 G2 G3)
    as (s1 & R1 & I1 & A1 & P1 & T1 & Y1); auto.
  pose proof (at_len _ _ _ A1) as L. cbn [length] in L.
  set (s2 := finish (no_attr t (set_st WithinTag s1)) (pos s1) StartTagSelfClose None (pos s1 + 2) WithinContent).
  assert (O : outcome s1 s2).
  { eapply O_in_tag; [lia|apply (enter s1 47%N (62%N :: r) I1 A1); [reflexivity|discriminate]|].
    apply (TO_self_close U t emit cs (set_st WithinTag s1)). apply (at_prefix t _ (bs "/>") r A1). }
  assert (R2 : trun s1 [(StartTagSelfClose, bs "/>")] s2).
  { eapply one; eauto; try discriminate. exact A1. }
  exists s2. split.
  { cbn [lex]. unfold lex_start. pose proof (trun_trans _ _ _ _ _ R1 R2) as R. rewrite <- !app_assoc in R. exact R. }
  split; [reflexivity|]. cbn [render pos s2 finish]. rewrite P1. unfold start_tag. rewrite !app_length. cbn [length bs]. lia.
Qed.

Lemma item_ok h : good U cs void h -> item_runs h.
Proof.
  revert h. fix IH 1. intros h G. destruct h as [s|s|w s|name attrs pad body close pad2|name attrs pad s pad2|name attrs pad|name attrs pad].
  - apply text_item.
  - apply comment_item.
  - apply doctype_item.
  - apply element_item. assert (GB : Forall (good U cs void) body) by (inversion G; auto). clear G.
    revert body GB. fix IHl 1. intros body GB. destruct body as [|h l]; [constructor|].
    constructor; [apply IH; inversion GB; auto|apply IHl; inversion GB; auto].
  - inversion G; subst; [apply script_item|apply style_item].
  - apply void_item.
  - apply self_item.
Qed.
End Run.
