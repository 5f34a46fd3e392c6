(** * Scanning again from the start of a node, without pseudo-close tokens *)
From Verif Require Import Base BaseFacts Stream Scanner ScannerFacts ScanStep ScanProps ScanShape ScanResume ScanPanic Tree
  Parser ParseSpec ParseInv ParseOrder PropParse TreeFacts PropTree TextDoc PropDoc PropTags SelectionRange ScanComplete
  ScanLocal SelAttr.
From Coq Require Import ZifyBool ZifyNat ZifyN.

(** A token that is not empty does not depend on the pseudo-close setting. *)
Lemma tag_outcome_emit U t cs sc r : tag_outcome U t true cs sc r -> pos sc < pos r -> tag_outcome U t false cs sc r.
Proof. intros H L. inversion H; subst; try (econstructor; eauto; fail); cbn in L; lia. Qed.
Lemma outcome_emit U t cs sc r : outcome U t true cs sc r -> pos sc < pos r -> outcome U t false cs sc r.
Proof.
  intros H L. inversion H; subst; try (econstructor; eauto; fail); try (cbn in L; lia).
  eapply O_in_tag; eauto. apply tag_outcome_emit; auto.
  match goal with E : enter_tag _ _ _ |- _ => inversion E; subst; auto end.
Qed.
Lemma scan_emit U t cs sc r : Utf8 t -> in_tag (st sc) = true -> scan U t true cs sc = Ok r -> pos sc < pos r ->
  scan U t false cs sc = Ok r.
Proof.
  intros HU It S L. pose proof (scan_outcome _ _ _ _ HU _ _ S) as O.
  pose proof (outcome_progress _ _ _ _ _ _ O) as (Q1 & Q2).
  apply outcome_scan; auto using outcome_emit.
  - destruct (sstate_eq_dec (st sc) AfterOpeningStartTag) as [E|E].
    2:{ right. unfold in_tag_state. destruct (st sc); try discriminate; auto; congruence. }
    left. rewrite scan_internal in S by auto. unfold internal_scan in S. rewrite E in S.
    unfold scan_after_opening_start_tag in S. apply eos_or_ok in S as [[Q ->]|[_ S]]; [cbn in L; lia|].
    apply bind_ok in S as (r1 & R & _). unfold next_element_name, name_of, adv_if_regexp in R.
    apply bind_ok in R as (r' & R & _). apply bind_ok in R as (r2 & R & _).
    apply slice_ok in R. apply boundary_Bd; auto; [lia|]. apply R.
  - intros Q. inversion O; subst; cbn in Q; try discriminate.
    + inversion H0; subst; inversion H1; subst; discriminate.
    + rewrite H in It. discriminate.
Qed.
Lemma scan_emit_all U t cs sc r : Utf8 t -> scan U t true cs sc = Ok r -> pos sc < pos r ->
  scan U t false cs sc = Ok r.
Proof.
  intros HU S L. destruct (in_tag (st sc)) eqn:It; [apply scan_emit; auto|].
  rewrite scan_internal in * by auto. unfold internal_scan in *.
  assert (EN : forall sc', pos sc' = pos sc -> scan_within_end_tag t true sc' = Ok r -> scan_within_end_tag t false sc' = Ok r).
  { intros sc' P. unfold scan_within_end_tag, eos_or. rewrite P. destruct (eos t (pos sc)); auto.
    destruct (skip_ws t (pos sc)); auto. destruct (adv_if_char t (pos sc) GT); auto. cbn [andb].
    destruct (peek_is t (pos sc) LT); auto. intros Q. apply Ok_inj in Q. subst r. cbn in L. lia. }
  destruct (st sc); try discriminate; auto.
  unfold scan_after_opening_end_tag, eos_or in *. destruct (eos t (pos sc)); auto.
  destruct (next_element_name U t cs (pos sc)) as [[[nm q]|]| |]; cbn [bind] in *; auto.
  destruct (skip_ws t (pos sc)); auto. destruct (pos sc <? _); auto.
Qed.
Lemma runs_emit_all U t cs m : forall sc f, Utf8 t -> runs U t true cs sc m f ->
  Forall (fun z => tok_off z < pos z) m -> runs U t false cs sc m f.
Proof.
  induction m as [|z m IH]; intros sc f HU R F; [inversion R; subst; constructor|].
  apply runs_inv in R as (S & NE & R). inversion F; subst.
  pose proof (scan_outcome _ _ _ _ HU _ _ S) as O. pose proof (outcome_progress _ _ _ _ _ _ O) as (Q1 & _).
  constructor; auto. apply scan_emit_all; auto. lia.
Qed.
Lemma runs_emit U t cs m : forall sc f, Utf8 t -> in_tag (st sc) = true -> runs U t true cs sc m f ->
  Forall (fun z => tok_off z < pos z) m -> (forall m1 z z' m2, m = m1 ++ z :: z' :: m2 -> in_tag (st z) = true) ->
  runs U t false cs sc m f.
Proof.
  induction m as [|z m IH]; intros sc f HU It R F C; [inversion R; subst; constructor|].
  apply runs_inv in R as (S & NE & R). inversion F; subst.
  pose proof (scan_outcome _ _ _ _ HU _ _ S) as O. pose proof (outcome_progress _ _ _ _ _ _ O) as (Q1 & _).
  constructor; auto; [apply scan_emit; auto; lia|].
  destruct m as [|z' m]; [inversion R; subst; constructor|].
  apply IH; auto. { apply (C [] z z' m). auto. }
  intros m1 y y' m2 E. apply (C (z :: m1) y y' m2). cbn. congruence.
Qed.

(** What the scanner guarantees about '<'. *)
Definition open_token (t : str) (k : token) : Prop := tk_type k = StartTagOpen ->
  tk_end k = tk_off k + 1 /\ tk_state k = AfterOpeningStartTag /\ tk_err k = None /\ nth_error t (tk_off k) = Some LT /\
  is_prefix (bs "<!--") (skipn (tk_off k) t) = false /\ nth_error t (tk_off k + 1) <> Some SLASH /\
  m_doctype (skipn (tk_off k + 1) t) = None.
Definition close_part (post : list token) : list token :=
  match post with k :: _ => if tk_off k <? tk_end k then [k] else [] | [] => [] end.

Section N.
Variables (U : unicode) (t : str) (cs : bool) (void : list str) (roots : list node).
Hypothesis HU : Utf8 t.
Hypothesis HP : parse U t cs void = Ok roots.

Lemma scan_open_at a : nth_error t a = Some LT -> Bd t a -> is_prefix (bs "<!--") (skipn a t) = false ->
  nth_error t (a + 1) <> Some SLASH -> m_doctype (skipn (a + 1) t) = None ->
  scan U t false cs (scanner_new a WithinContent) =
  Ok (finish (scanner_new a WithinContent) a StartTagOpen None (a + 1) AfterOpeningStartTag).
Proof.
  intros. apply outcome_scan; auto; [|discriminate].
  apply O_start_tag_open; cbn [pos st scanner_new]; auto. left. reflexivity.
Qed.

Lemma start_tag_runs n : In n (doc_nodes roots) ->
  exists pre op ks post m z,
    doc_tokens U t cs = Ok (pre ++ op :: ks ++ post) /\
    tk_type op = StartTagOpen /\ tk_off op = n_start n /\ tk_end op = n_start n + 1 /\
    Forall (fun k => in_tag (tk_state k) = true) ks /\
    (forall k r, post = k :: r -> in_tag (tk_state k) = false) /\
    n_tag n = tag_in t ks /\
    n_ste n = ste_of post /\
    runs U t false cs (scanner_new (n_start n) WithinContent) m z /\
    map token_of m = op :: ks ++ close_part post.
Proof.
  intros I. destruct (node_facts _ _ _ _ _ HU HP) as (l & TD & F). destruct (F n I).
  destruct ok_start as (pre & op & ks & post & TS & O1 & O2 & K1 & _ & K2 & K3 & _ & S0).
  assert (T := TD). unfold doc_tokens in T. apply bind_ok in T as ([l' f] & T & E). apply Ok_inj in E. subst l'.
  assert (OPN : Forall (open_token t) l).
  { revert T. apply tokens_forall. intros u v S Ty. apply scan_outcome in S; auto.
    unfold token_of in *. cbn [tk_type tk_off tk_end tk_state tk_err] in *.
    inversion S; subst; cbn [finish tok tok_off pos st tok_err] in *; try discriminate; auto 10.
    match goal with T' : tag_outcome _ _ _ _ ?a _ |- _ => inversion T'; subst; discriminate end. }
  rewrite Forall_forall in OPN.
  assert (Iop : In op l) by (subst l; apply in_or_app; cbn; auto).
  destruct (OPN _ Iop O1) as (P1 & P2 & P0 & P3 & P4 & P5 & P6). rewrite O2 in *.
  assert (BA : Bd t (n_start n)).
  { apply boundary_Bd; auto; [lia|]. eapply boundary_byte; eauto. reflexivity. }
  pose proof (scan_open_at (n_start n) P3 BA P4 P5 P6) as S1.
  set (y1 := finish (scanner_new (n_start n) WithinContent) (n_start n) StartTagOpen None (n_start n + 1) AfterOpeningStartTag) in *.
  rewrite TS in T. apply tokens_split in T as (fuel' & z & _ & Z1 & T).
  assert (Z2 : st z = AfterOpeningStartTag /\ pos z = n_start n + 1).
  { rewrite <- P2, <- P1. subst op. auto. }
  assert (SM : sim t z y1).
  { destruct Z2 as [Z2 Z3]. split; [exact Z2|]. split; [exact Z3|]. rewrite Z2. discriminate. }
  eapply sim_tokens in T as (f' & T & _); eauto.
  replace (ks ++ post) with ((ks ++ close_part post) ++
    match post with k :: r => if tk_off k <? tk_end k then r else post | [] => [] end) in T.
  2:{ rewrite <- app_assoc. f_equal. unfold close_part. destruct post as [|k r]; auto.
      destruct (tk_off k <? tk_end k); auto. }
  apply tokens_runs in T as (m & z' & fuel2 & R & M & _).
  exists pre, op, ks, post, (y1 :: m), z'. rewrite <- TS.
  split; [exact TD|]. split; [exact O1|]. split; [exact O2|]. split; [exact P1|]. split; [exact K1|].
  split; [exact K2|]. split; [exact K3|]. split; [exact S0|].
  assert (OP : op = token_of y1).
  { destruct op. cbn in *. subst. reflexivity. }
  split; [|cbn [map]; rewrite M, OP; auto].
  constructor; auto; [discriminate|].
  assert (PR : forall m1 z0 m2, m = m1 ++ z0 :: m2 -> exists g, scan U t true cs g = Ok z0 /\ tok z0 <> EOS).
  { intros m1 z0 m2 E. rewrite E in R. apply runs_app in R as (g & _ & G). apply runs_inv in G as (G & G' & _). eauto. }
  apply runs_emit; auto.
  - apply Forall_forall. intros x X. apply in_split in X as (m1 & m2 & X).
    destruct (PR _ _ _ X) as (g & G & NE). pose proof (scan_outcome _ _ _ _ HU _ _ G) as O.
    pose proof (outcome_progress _ _ _ _ _ _ O) as (Q1 & Q2).
    assert (IX : In (token_of x) (ks ++ close_part post)).
    { rewrite <- M. apply in_map. rewrite X. apply in_or_app. cbn. auto. }
    apply in_app_iff in IX as [IX|IX].
    + rewrite Forall_forall in K1. apply K1 in IX. cbn in IX.
      destruct Q2 as [(? & _)|[(_ & Q2 & _)|(_ & _ & Q2 & _ & Q3 & _)]]; [congruence|lia|].
      rewrite Q3 in IX. discriminate.
    + unfold close_part in IX. destruct post as [|k r]; [contradiction|].
      destruct (tk_off k <? tk_end k) eqn:L; [|contradiction]. destruct IX as [->|[]]. apply Nat.ltb_lt in L. exact L.
  - intros m1 x x' m2 E. rewrite Forall_forall in K1. apply (K1 (token_of x)).
    rewrite E, map_app in M. cbn [map] in M. unfold close_part in M.
    assert (Q : forall (a : list token) x y b k c, a ++ x :: y :: b = k ++ c -> length c <= 1 -> In x k).
    { clear. induction a as [|u a IH]; intros x y b k c E L; cbn [app] in E.
      - destruct k as [|v k]; cbn [app] in E; [subst c; cbn in L; lia|]. injection E as E _. left. congruence.
      - destruct k as [|v k]; cbn [app] in E; [subst c; cbn in L; rewrite app_length in L; cbn in L; lia|].
        injection E as -> E. right. eapply IH; eauto. }
    eapply Q; [exact M|]. destruct post as [|k r]; [auto|]. destruct (tk_off k <? tk_end k); auto.
Qed.

(** ** Loops that stop at the cursor *)
(** Scanning from [sc] meets the tokens [l] in this order. *)
Definition scanned (sc : scanner) (l : list token) : Prop :=
  exists m z, runs U t false cs sc m z /\ map token_of m = l.
Lemma runs_after sc m z : runs U t false cs sc m z -> Forall (fun x => pos sc <= tok_off x < pos x /\ pos x <= length t) m.
Proof.
  intros R. induction R as [sc|sc sc' m f S NE R IH]; [constructor|].
  destruct (step_kind _ _ _ _ _ HU S NE) as (A & B & C & _).
  constructor; [lia|]. eapply Forall_impl; [|exact IH]. cbn. lia.
Qed.
Lemma runs_tiles sc m z : runs U t false cs sc m z -> tiles (pos sc) (map token_of m) (pos z).
Proof.
  intros R. induction R as [sc|sc sc' m f S NE R IH]; cbn [map tiles]; auto.
  destruct (step_kind _ _ _ _ _ HU S NE) as (A & B & C & _). apply runs_pos in R; auto.
  cbn [token_of tk_off tk_end]. repeat split; auto; lia.
Qed.
Lemma runs_end sc m z : runs U t false cs sc m z -> pos sc <= length t -> pos z <= length t.
Proof.
  intros R. induction R as [sc|sc sc' m f S NE R IH]; intros L; auto.
  destruct (step_kind _ _ _ _ _ HU S NE) as (A & B & C & _). auto.
Qed.
Lemma runs_length sc m z : runs U t false cs sc m z -> pos sc <= length t -> length m + pos sc <= length t.
Proof.
  intros R. induction R as [sc|sc sc' m f S NE R IH]; intros L; cbn [length]; auto.
  destruct (step_kind _ _ _ _ _ HU S NE) as (A & B & C & _). specialize (IH B). lia.
Qed.

(** ** Scanning on into the content *)
Lemma from_open_eos n l : In n (doc_nodes roots) -> doc_tokens U t cs = Ok l ->
  exists pre op rest m z, l = pre ++ op :: rest /\ tk_type op = StartTagOpen /\ tk_off op = n_start n /\
    tk_end op = n_start n + 1 /\
    runs U t true cs (scanner_new (n_start n) WithinContent) m z /\ map token_of m = op :: rest /\
    exists f, scan U t true cs z = Ok f /\ tok f = EOS.
Proof.
  intros I TD. destruct (node_facts _ _ _ _ _ HU HP) as (l' & TD' & F). rewrite TD in TD'. apply Ok_inj in TD'. subst l'.
  destruct (F n I). destruct ok_start as (pre & op & ks & post & TS & O1 & O2 & _).
  assert (T := TD). unfold doc_tokens in T. apply bind_ok in T as ([l' f] & T & E). apply Ok_inj in E. subst l'.
  assert (OPN : Forall (open_token t) l).
  { revert T. apply tokens_forall. intros u v S Ty. apply scan_outcome in S; auto.
    unfold token_of in *. cbn [tk_type tk_off tk_end tk_state tk_err] in *.
    inversion S; subst; cbn [finish tok tok_off pos st tok_err] in *; try discriminate; auto 10.
    match goal with T' : tag_outcome _ _ _ _ ?a _ |- _ => inversion T'; subst; discriminate end. }
  rewrite Forall_forall in OPN.
  assert (Iop : In op l) by (subst l; apply in_or_app; cbn; auto).
  destruct (OPN _ Iop O1) as (P1 & P2 & P0 & P3 & P4 & P5 & P6). rewrite O2 in *.
  set (y1 := finish (scanner_new (n_start n) WithinContent) (n_start n) StartTagOpen None (n_start n + 1) AfterOpeningStartTag) in *.
  assert (S1 : scan U t true cs (scanner_new (n_start n) WithinContent) = Ok y1).
  { apply outcome_scan; auto; [| |discriminate].
    - apply O_start_tag_open; cbn [pos st scanner_new]; auto. left. reflexivity.
    - left. cbn [pos scanner_new]. apply boundary_Bd; auto; [lia|]. eapply boundary_byte; eauto. reflexivity. }
  rewrite TS in T. apply tokens_split in T as (fuel' & z & _ & Z1 & T).
  assert (Z2 : st z = AfterOpeningStartTag /\ pos z = n_start n + 1).
  { rewrite <- P2, <- P1. subst op. auto. }
  assert (SM : sim t z y1).
  { destruct Z2 as [Z2 Z3]. split; [exact Z2|]. split; [exact Z3|]. rewrite Z2. discriminate. }
  eapply sim_tokens in T as (f' & T & _); eauto.
  rewrite <- (app_nil_r (ks ++ post)) in T. apply tokens_runs in T as (m & z' & fu & R & M & T).
  exists pre, op, (ks ++ post), (y1 :: m), z'.
  assert (OP : op = token_of y1). { destruct op. cbn in *. subst. reflexivity. }
  repeat split; auto; [constructor; auto; discriminate| |].
  - cbn [map]. rewrite M, OP. reflexivity.
  - destruct fu as [|fu]; [discriminate|]. cbn [tokens] in T. apply bind_ok in T as (w & S & T).
    destruct (token_eqb (tok w) EOS) eqn:E; [|apply bind_ok in T as ([? ?] & _ & T); discriminate].
    apply token_eqb_eq in E. eauto.
Qed.
Lemma from_open n l : In n (doc_nodes roots) -> doc_tokens U t cs = Ok l ->
  exists pre op rest m z, l = pre ++ op :: rest /\ tk_type op = StartTagOpen /\ tk_off op = n_start n /\
    tk_end op = n_start n + 1 /\
    runs U t true cs (scanner_new (n_start n) WithinContent) m z /\ map token_of m = op :: rest.
Proof.
  intros I T. destruct (from_open_eos n l I T) as (pre & op & rest & m & z & H). exists pre, op, rest, m, z. tauto.
Qed.

(** The token over the position [o]. *)
Lemma cut_at o l : forall a b, tiles a l b -> a <= o < b ->
  exists l1 k l2, l = l1 ++ k :: l2 /\ Forall (fun x => tk_end x <= o) l1 /\ tk_off k <= o < tk_end k.
Proof.
  induction l as [|x l IH]; intros a b T L; cbn [tiles] in T; [lia|]. destruct T as (T1 & T2 & T3 & T4).
  destruct (Nat.lt_ge_cases o (tk_end x)) as [Q|Q].
  - exists [], x, l. repeat split; auto; lia.
  - destruct (IH _ _ T4) as (l1 & k & l2 & E & F & K); [lia|]. exists (x :: l1), k, l2. subst l.
    repeat split; auto; lia.
Qed.

(** Without unfinished tags between the start of [n] and the cursor, the scan without
    pseudo-close tokens finds the tokens of the document up to the cursor. *)
Lemma content_runs n l o : In n (doc_nodes roots) -> doc_tokens U t cs = Ok l -> n_start n <= o < length t ->
  (forall k, In k l -> n_start n <= tk_off k <= o -> tk_off k < tk_end k) ->
  exists pre op l1 k l2 m z, l = pre ++ (op :: l1) ++ l2 /\ In k (op :: l1) /\ o < tk_end k /\
    tk_type op = StartTagOpen /\ tk_off op = n_start n /\ tk_end op = n_start n + 1 /\
    runs U t false cs (scanner_new (n_start n) WithinContent) m z /\ map token_of m = op :: l1.
Proof.
  intros I TD L Q. destruct (from_open n l I TD) as (pre & op & rest & m & z & E & O1 & O2 & O3 & R & M).
  pose proof (doc_tiles _ _ _ _ HU TD) as TL. rewrite E in TL. apply tiles_app in TL as (a & TL1 & TL2).
  assert (a = n_start n) by (cbn [tiles] in TL2; lia). subst a.
  destruct (cut_at o _ _ _ TL2 L) as (m1 & k & m2 & EQ & F & K).
  destruct m1 as [|op' l1].
  { cbn [app] in EQ. injection EQ as <- <-. destruct m as [|y m]; [discriminate|]. cbn [map] in M. injection M as M M'.
    exists pre, op, [], op, rest, [y], y. cbn [app In map]. subst op. repeat split; auto; try lia.
    apply runs_inv in R as (S & NE & R). constructor; auto; [|constructor].
    apply scan_emit_all; auto. change (pos y) with (tk_end (token_of y)). cbn [pos scanner_new]. lia. }
  cbn [app] in EQ. injection EQ as <- EQ.
  assert (M' : map token_of m = ((op :: l1) ++ [k]) ++ m2).
  { rewrite M, EQ. cbn [app]. rewrite <- app_assoc. reflexivity. }
  apply map_eq_app in M' as (u & v & -> & M1 & M2). apply runs_app in R as (g & R & _).
  exists pre, op, (l1 ++ [k]), k, m2, u, g.
  assert (EL : l = pre ++ (op :: l1 ++ [k]) ++ m2).
  { rewrite E, EQ. cbn [app]. rewrite <- app_assoc. reflexivity. }
  assert (LS : forall x, In x (op :: l1 ++ [k]) -> In x l).
  { intros x X. rewrite EL. apply in_or_app. right. apply in_or_app. auto. }
  split; [exact EL|]. split; [right; apply in_or_app; cbn; auto|]. split; [lia|]. repeat split; auto.
  apply runs_emit_all; auto.
  apply Forall_forall. intros x X. apply (in_map token_of) in X. rewrite M1 in X.
  change (tk_off (token_of x) < tk_end (token_of x)). apply Q; [apply LS; exact X|].
  rewrite EQ in TL2. replace (op :: l1 ++ k :: m2) with ((op :: l1) ++ k :: m2) in TL2 by auto.
  split.
  - replace ((op :: l1) ++ k :: m2) with ((op :: l1 ++ [k]) ++ m2) in TL2 by (cbn [app]; rewrite <- app_assoc; reflexivity).
    eapply tiles_bounds; eauto. apply in_or_app. auto.
  - change ((op :: l1) ++ [k]) with (op :: l1 ++ [k]) in X. destruct X as [<-|X]; [lia|].
    apply in_app_iff in X as [X|[<-|[]]]; [|lia]. rewrite Forall_forall in F. specialize (F (token_of x) (or_intror X)).
    apply tiles_app in TL2 as (b & TL2 & _).
    pose proof (tiles_bounds _ _ _ _ TL2 (or_intror X)). lia.
Qed.

(** ** Names, attributes and values lie in a start tag *)
Definition tag_part (ty : token_type) : Prop := ty = StartTag \/ ty = AttributeName \/ ty = AttributeValue.
Lemma tag_part_step emit sc sc' : scan U t emit cs sc = Ok sc' -> tag_part (tok sc') ->
  in_tag (st sc) = true /\ in_tag (st sc') = true.
Proof.
  intros S P. apply scan_outcome in S; auto.
  inversion S; subst; cbn [finish tok st] in *; try (destruct P as [P|[P|P]]; discriminate);
    try (rewrite H; auto; fail).
  inversion H0; subst; inversion H1; subst; cbn [finish tok st set_st set_space] in *; try (destruct P as [P|[P|P]]; discriminate);
    match goal with E : st _ = _ |- _ => rewrite E; auto end.
Qed.
Lemma in_tag_step emit sc sc' : scan U t emit cs sc = Ok sc' -> in_tag (st sc') = true ->
  tok sc' = StartTagOpen \/ in_tag (st sc) = true.
Proof.
  intros S P. apply scan_outcome in S; auto.
  inversion S; subst; cbn [finish tok st] in *; auto; try discriminate;
    try (right; match goal with E : st _ = _ |- _ => rewrite E; auto end; fail).
  - right. inversion H0; subst; match goal with E : st _ = _ |- _ => rewrite E; auto end.
  - destruct H2 as [->|[-> _]]; discriminate.
Qed.
Lemma tag_part_runs emit m1 : forall sc k m2 f, runs U t emit cs sc (m1 ++ k :: m2) f -> tag_part (tok k) ->
  (exists pre op ks, map token_of m1 = pre ++ op :: ks /\ tk_type op = StartTagOpen /\
     Forall (fun k => in_tag (tk_state k) = true /\ tk_type k <> StartTagOpen) ks) \/
  (in_tag (st sc) = true /\ Forall (fun k => in_tag (tk_state k) = true /\ tk_type k <> StartTagOpen) (map token_of m1)).
Proof.
  induction m1 as [|x m1 IH]; intros sc k m2 f R P.
  - apply runs_inv in R as (S & _). right. split; [|constructor]. apply (tag_part_step _ _ _ S P).
  - cbn [app] in R. apply runs_inv in R as (S & NE & R). destruct (IH _ _ _ _ R P) as [(pre & op & ks & E & O & F)|[It F]].
    + left. exists (token_of x :: pre), op, ks. cbn [map app]. rewrite E. auto.
    + destruct (token_eqb (tok x) StartTagOpen) eqn:TX.
      * apply token_eqb_eq in TX. left. exists [], (token_of x), (map token_of m1). auto.
      * apply token_eqb_neq in TX. right. destruct (in_tag_step _ _ _ S It) as [|Q]; [congruence|]. split; auto.
        cbn [map]. constructor; auto.
Qed.
Lemma tag_part_owner l l1 k l2 : doc_tokens U t cs = Ok l -> l = l1 ++ k :: l2 -> tag_part (tk_type k) ->
  in_tag (tk_state k) = true /\
  exists pre op ks, l1 = pre ++ op :: ks /\ tk_type op = StartTagOpen /\
    Forall (fun k => in_tag (tk_state k) = true /\ tk_type k <> StartTagOpen) ks.
Proof.
  intros T E P. unfold doc_tokens in T. apply bind_ok in T as ([l' f] & T & Q). apply Ok_inj in Q. subst l'.
  rewrite <- (app_nil_r l) in T. apply tokens_runs in T as (m & z & _ & R & M & _). rewrite E in M.
  apply map_eq_app in M as (m1 & mk & -> & M1 & M2). destruct mk as [|y m2]; [discriminate|].
  cbn [map] in M2. injection M2 as M2 M3. subst k.
  split.
  - assert (R' := R). apply runs_app in R' as (g & _ & R'). apply runs_inv in R' as (S & _).
    apply (tag_part_step _ _ _ S P).
  - rewrite <- M1. destruct (tag_part_runs _ _ _ _ _ _ R P) as [Q|[Q _]]; auto. discriminate.
Qed.

(** A name, attribute or value lies in the start tag of a node. *)
Lemma app_split_after {A} (a : list A) : forall x b c y d, a ++ x :: b = c ++ y :: d ->
  (exists m, c = a ++ x :: m) \/ (a = c /\ x = y /\ b = d) \/ (exists m, a = c ++ y :: m).
Proof.
  induction a as [|u a IH]; intros x b c y d E.
  - destruct c as [|v c]; cbn [app] in E; injection E as <- E; [right; left; auto|]. left. exists c. auto.
  - destruct c as [|v c]; cbn [app] in E; injection E as <- E; [right; right; exists a; auto|].
    destruct (IH _ _ _ _ _ E) as [(m & ->)|[(-> & -> & ->)|(m & ->)]]; [left; exists m; auto|right; left; auto|].
    right; right. exists m. auto.
Qed.
Lemma tag_part_in l l1 k l2 : doc_tokens U t cs = Ok l -> l = l1 ++ k :: l2 -> tag_part (tk_type k) ->
  exists n pre op ks, In n (doc_nodes roots) /\ l1 = pre ++ op :: ks /\ tk_type op = StartTagOpen /\ tk_off op = n_start n /\
    Forall (fun k => in_tag (tk_state k) = true /\ tk_type k <> StartTagOpen) ks.
Proof.
  intros T E P. destruct (tag_part_owner l l1 k l2 T E P) as (It & pre & op & ks & E1 & O & F).
  pose proof (C13_nodes_are_open_tags _ _ _ _ _ _ HU T HP) as C.
  assert (I : In (tk_off op) (map n_start (doc_nodes roots))).
  { rewrite C. apply in_map. apply filter_In. split; [subst; apply in_or_app; left; apply in_or_app; cbn; auto|].
    rewrite O. reflexivity. }
  apply in_map_iff in I as (n & N & I). exists n, pre, op, ks. auto.
Qed.
(** In a complete start tag all of them end before the tag does. *)
Lemma in_start_tag n l pre op ks k l2 s : In n (doc_nodes roots) -> doc_tokens U t cs = Ok l ->
  l = pre ++ op :: ks ++ k :: l2 -> tk_type op = StartTagOpen -> tk_off op = n_start n ->
  Forall (fun k => in_tag (tk_state k) = true) (ks ++ [k]) -> n_ste n = Some s -> tk_end k < s.
Proof.
  intros I T E O1 O2 F ST. destruct (start_tag_runs n I) as (pre' & op' & ks' & post & m & z & T' & O1' & O2' & O3' & K1 & K2 & _ & SE & _).
  rewrite T in T'. apply Ok_inj in T'. rewrite ST in SE.
  destruct post as [|c r]; [discriminate|]. specialize (K2 c r eq_refl).
  pose proof (doc_tiles _ _ _ _ HU T) as TL.
  assert (EQ : pre = pre' /\ op = op' /\ ks ++ k :: l2 = ks' ++ c :: r).
  { rewrite E in T'. rewrite E in TL. assert (TL' := TL). rewrite T' in TL'.
    apply tiles_app in TL as (a & A1 & A2). apply tiles_app in TL' as (b & B1 & B2). cbn [tiles] in A2, B2.
    destruct (app_split_after _ _ _ _ _ _ T') as [(q & Q)|[Q|(q & Q)]]; auto; exfalso.
    - assert (X : In op pre') by (rewrite Q; apply in_or_app; cbn; auto). apply (tiles_bounds _ _ _ _ B1) in X as X'.
      assert (NE : tk_end op = tk_off op + 1).
      { destruct (from_open n l I T) as (p3 & o3 & r3 & m3 & z3 & E3 & O31 & O32 & O33 & _).
        clear - E3 E O31 O1 O2 O32 O33 HU T. assert (OPN : Forall (open_token t) l).
        { unfold doc_tokens in T. apply bind_ok in T as ([l' f] & T & Q). apply Ok_inj in Q. subst l'.
          revert T. apply tokens_forall. intros u v S Ty. apply scan_outcome in S; auto.
          unfold token_of in *. cbn [tk_type tk_off tk_end tk_state tk_err] in *.
          inversion S; subst; cbn [finish tok tok_off pos st tok_err] in *; try discriminate; auto 10.
          match goal with T' : tag_outcome _ _ _ _ ?a _ |- _ => inversion T'; subst; discriminate end. }
        rewrite Forall_forall in OPN. destruct (OPN op) as (Q & _); auto. subst l. apply in_or_app. cbn. auto. }
      lia.
    - assert (X : In op' pre) by (rewrite Q; apply in_or_app; cbn; auto). apply (tiles_bounds _ _ _ _ A1) in X as X'. lia. }
  destruct EQ as (<- & <- & EQ). rewrite E in TL. apply tiles_app in TL as (a & A1 & A2). cbn [tiles] in A2.
  destruct A2 as (_ & _ & _ & A2). rewrite EQ in A2. apply tiles_app in A2 as (b & A2 & A3).
  cbn [tiles] in A3. cbn [ste_of] in SE.
  assert (tk_off c < tk_end c /\ s = tk_end c).
  { destruct (token_eqb (tk_type c) StartTagSelfClose || token_eqb (tk_type c) StartTagClose && (tk_off c <? tk_end c)) eqn:Q;
      [|discriminate]. apply Some_inj in SE. split; auto.
    apply orb_true_iff in Q as [Q|Q]; [|lia]. apply token_eqb_eq in Q.
    assert (SH : Forall (token_shape U t true) l).
    { assert (T2 := T). unfold doc_tokens in T2. apply bind_ok in T2 as ([l' f] & T2 & E'). apply Ok_inj in E'. subst l'.
      revert T2. apply tokens_forall. intros u v. apply scan_shape. auto. }
    rewrite Forall_forall in SH. specialize (SH c ltac:(rewrite T'; apply in_or_app; cbn; right; right; apply in_or_app; cbn; auto)).
    unfold token_shape in SH. rewrite Q in SH. apply (f_equal (@length N)) in SH.
    destruct (Nat.lt_ge_cases (tk_off c) (tk_end c)); auto. exfalso. unfold sub in SH.
    replace (tk_end c - tk_off c) with 0 in SH by lia. cbn in SH. lia. }
  rewrite Forall_forall in F, K1.
  destruct (app_split_after _ _ _ _ _ _ EQ) as [(q & Q)|[(Q1 & Q2 & _)|(q & Q)]].
  - assert (X : In k ks') by (rewrite Q; apply in_or_app; cbn; auto). apply (tiles_bounds _ _ _ _ A2) in X. lia.
  - exfalso. subst c. rewrite F in K2; [discriminate|]. apply in_or_app. cbn. auto.
  - exfalso. rewrite F in K2; [discriminate|]. apply in_or_app. left. rewrite Q. apply in_or_app. cbn. auto.
Qed.
End N.
