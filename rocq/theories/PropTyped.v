(** * C66: what is proposed while a tag is being typed *)
From Verif Require Import Base BaseFacts Stream Scanner ScannerFacts ScanStep ScanProps ScanPanic
  ScanShape Tree Parser ParseSpec ParseInv ParseOrder PropParse TreeFacts TextDoc PropDoc DataManager
  PropData TagServices BuiltinData Entities Hover Completion PropEnd SelAttr NodeScan PropTags PropTagComplete PropAnswers Render RenderFacts PropRender
  PropRename FormatFacts FormatWords PropLinks LayoutTree ParseKeep.
From Coq Require Import ZifyBool ZifyNat ZifyN.

(** ** Specification *)
(** A position inside elements whose start tags were written and whose end tags were not: for
    each of them, outermost first, what stands before it in its parent, and its start tag. *)
Record level := mkLevel { lv_before : list html; lv_name : str; lv_attrs : list hattr; lv_pad : str }.
Definition open_text (v : level) : str :=
  render_all (lv_before v) ++ start_tag (lv_name v) (lv_attrs v) (lv_pad v) (bs ">").
Definition opens (vs : list level) : str := flat_map open_text vs.
(** What stands before is well-formed; the element is not a void element, a script or a style. *)
Definition good_level (U : unicode) (cs : bool) (void : list str) (v : level) : Prop :=
  good_doc U cs void (lv_before v) /\ good_name U (lv_name v) /\ good_attrs (lv_attrs v) /\ blank (lv_pad v) /\
  ~ is_raw U cs (lv_name v) /\ ~ In (lv_name v) void.

(** ** Runs of the parser and the tokens of the document *)
Section Runs.
Variables (U : unicode) (t : str) (cs : bool) (void : list str).
Hypothesis HU : Utf8 t.
Notation run := (run U t cs void).

Lemma run_runs sc p sc1 p1 : run sc p sc1 p1 -> pos sc <= pos sc1 /\ exists m ex, runs U t true cs sc m sc1 /\
  Forall (fun y => tok_off y < pos y) m /\
  pstarts p1 = pstarts p ++ ex /\ Forall (fun s => pos sc <= s < pos sc1) ex.
Proof.
  induction 1 as [|sc p sc1 p1 sc2 p2 _ A B C D _ (L & m & ex & IH1 & IH2 & IH3 & IH4)].
  - split; auto. exists [], []. rewrite app_nil_r. repeat split; auto. constructor.
  - split; [lia|]. pose proof (scan_outcome _ _ _ _ HU _ _ A) as O. apply outcome_progress in O as (O & _).
    exists (sc1 :: m), ((if token_eqb (tok sc1) StartTagOpen then [tok_off sc1] else []) ++ ex).
    split; [econstructor; eauto|]. split; [constructor; auto; lia|]. split.
    + rewrite IH3, (pstep_starts _ _ _ _ _ _ _ D), app_assoc. auto.
    + apply Forall_app. split.
      * destruct (token_eqb _ _); constructor; auto. lia.
      * eapply Forall_impl; [|exact IH4]. cbn. intros; lia.
Qed.
Lemma loop_starts fuel : forall sc p p', parse_loop U t cs void fuel sc p = Ok p' ->
  exists ex, pstarts p' = pstarts p ++ ex /\ Forall (fun s => pos sc <= s) ex.
Proof.
  induction fuel as [|fuel IH]; intros sc p p' H; [discriminate|]. cbn [parse_loop] in H.
  apply bind_ok in H as (y & E & H). destruct (token_eqb (tok y) EOS) eqn:Q.
  - apply Ok_inj in H. subst. exists []. rewrite app_nil_r. auto.
  - apply bind_ok in H as (p1 & E1 & H). apply IH in H as (ex & H1 & H2). apply token_eqb_neq in Q.
    pose proof (scan_outcome _ _ _ _ HU _ _ E) as O. apply outcome_progress in O as (O1 & O).
    exists ((if token_eqb (tok y) StartTagOpen then [tok_off y] else []) ++ ex). split.
    + rewrite H1, (pstep_starts _ _ _ _ _ _ _ E1), app_assoc. auto.
    + apply Forall_app. split.
      * destruct (token_eqb _ _); constructor; auto. lia.
      * eapply Forall_impl; [|exact H2]. cbn. intros s S.
        destruct O as [(O & _)|[O|(_ & _ & O & _)]]; [congruence|lia|lia].
Qed.
Lemma tokens_from fuel : forall sc l f, tokens U t true cs fuel sc = Ok (l, f) -> Forall (fun k => pos sc <= tk_off k) l.
Proof.
  induction fuel as [|fuel IH]; intros sc l f H; [discriminate|]. cbn [tokens] in H.
  apply bind_ok in H as (y & E & H). destruct (token_eqb (tok y) EOS) eqn:Q.
  - apply Ok_inj in H. inversion H. constructor.
  - apply bind_ok in H as ([l' f'] & E1 & H). apply Ok_inj in H. inversion H; subst. apply token_eqb_neq in Q.
    pose proof (scan_outcome _ _ _ _ HU _ _ E) as O. apply outcome_progress in O as (O1 & O). constructor.
    + cbn. lia.
    + eapply Forall_impl; [|eapply IH; eauto]. cbn. intros k K.
      destruct O as [(O & _)|[O|(_ & _ & O & _)]]; [congruence|lia|lia].
Qed.
Lemma runs_tokens sc m sc1 : runs U t true cs sc m sc1 -> forall fuel l f, tokens U t true cs fuel sc = Ok (l, f) ->
  exists fuel' l2, l = map token_of m ++ l2 /\ tokens U t true cs fuel' sc1 = Ok (l2, f).
Proof.
  induction 1 as [|sc sc' m z A B R IH]; intros fuel l f H; [exists fuel, l; auto|].
  destruct fuel as [|fuel]; [discriminate|]. cbn [tokens] in H. rewrite A in H. cbn [bind] in H.
  apply token_eqb_neq in B. rewrite B in H. apply bind_ok in H as ([l' f'] & E1 & H). apply Ok_inj in H. inversion H; subst.
  destruct (IH _ _ _ E1) as (fuel' & l2 & -> & T). exists fuel', l2. auto.
Qed.
(** The tokens the document begins with. *)
Lemma run_doc p sc1 p1 l : run (scanner_new 0 WithinContent) p sc1 p1 -> doc_tokens U t cs = Ok l ->
  exists m l2, l = map token_of m ++ l2 /\ runs U t true cs (scanner_new 0 WithinContent) m sc1 /\
    Forall (fun y => tok_off y < pos y) m /\ Forall (fun k => pos sc1 <= tk_off k) l2.
Proof.
  intros R H. apply run_runs in R as (_ & m & ex & R & F & _). unfold doc_tokens in H.
  apply bind_ok in H as ([l' f] & T & Q). apply Ok_inj in Q. subst l'.
  destruct (runs_tokens _ _ _ R _ _ _ T) as (fuel & l2 & E & T2). exists m, l2. repeat (split; auto). eapply tokens_from; eauto.
Qed.
Lemma runs_last sc m sc1 : runs U t true cs sc m sc1 -> sc1 = sc \/ In sc1 m.
Proof. induction 1 as [|sc sc' m z A B _ [->|IH]]; cbn; auto. Qed.
Lemma rest_of_run sc1 p1 roots : run (scanner_new 0 WithinContent) (mkP (node_new 0 (length t)) [] None None None) sc1 p1 ->
  pos sc1 <= length t -> parse U t cs void = Ok roots ->
  exists fuel p', parse_loop U t cs void fuel sc1 p1 = Ok p' /\ roots = n_children (close_all t (cur p') (parents p')).
Proof.
  intros R L H. apply run_loop in R as (_ & k & K & E). unfold parse in H. apply bind_ok in H as (p' & H1 & H2).
  apply Ok_inj in H2. cbn [pos scanner_new] in K.
  assert (F : exists f, scan_fuel t = k + f) by (exists (scan_fuel t - k); unfold scan_fuel; lia).
  destruct F as (f & EF). rewrite EF, E in H1. eauto.
Qed.
Lemma starts_closed c ps : map n_start (doc_nodes (n_children (close_all t c ps))) = zstarts c ps.
Proof.
  revert c. induction ps as [|par ps IH]; intros c; cbn [close_all].
  - unfold doc_nodes. cbn [zstarts]. induction (n_children c) as [|x l IHl]; auto. cbn [flat_map]. rewrite map_app, IHl. reflexivity.
  - rewrite IH, zstarts_pop. apply zstarts_same; auto.
Qed.

(** ** The open elements *)
Lemma all_run l sc p s : good_doc U cs void l -> st sc = WithinContent -> at_ t (pos sc) (render_all l ++ s) ->
  s = [] \/ (exists s', s = 60%N :: s') ->
  exists sc1 p1, run sc p sc1 p1 /\ st sc1 = WithinContent /\ pos sc1 = pos sc + length (render_all l) /\
    cur p1 = plus (cur p) (nodes_all (pos sc) l) /\ parents p1 = parents p /\ (calm sc -> calm sc1).
Proof.
  intros [G NS]. apply list_from_items; auto. eapply Forall_impl; [|exact G]. intros h Gh. apply item_ok; auto.
Qed.
Lemma doc_utf8 l : good_doc U cs void l -> Utf8 (render_all l).
Proof.
  intros [G _]. induction G; [apply u_nil|]. cbn [render_all flat_map]. apply u_app; auto. eapply render_utf8; eauto.
Qed.
Lemma level_utf8 v : good_level U cs void v -> Utf8 (open_text v).
Proof.
  intros (G1 & G2 & G3 & G4 & _). unfold open_text. apply u_app; [apply doc_utf8; auto|].
  eapply start_utf8; eauto. apply u_one. reflexivity.
Qed.
Lemma level_run v sc p s : good_level U cs void v -> st sc = WithinContent -> at_ t (pos sc) (open_text v ++ s) ->
  exists sc0 p0 sc1 p1, run sc p sc0 p0 /\ run sc0 p0 sc1 p1 /\ st sc1 = WithinContent /\
    pos sc0 < pos sc1 /\ pos sc1 = pos sc + length (open_text v) /\
    cur p1 = mkNode (Some (lv_name v)) (pos sc0) (pos sc1) [] false (Some (pos sc1)) None
               (attrs_from (pos sc0 + 1 + length (lv_name v)) (lv_attrs v)) /\
    parents p1 = cur p0 :: parents p0 /\ tok sc1 = StartTagClose /\ tok_off sc1 + 1 = pos sc1.
Proof.
  intros (G1 & G2 & G3 & G4 & G5 & G6) S A. unfold open_text in A. rewrite <- app_assoc in A.
  destruct (all_run (lv_before v) sc p _ G1 S A) as (sc0 & p0 & R0 & S0 & P0 & _).
  { right. unfold start_tag. cbn [bs app]. eauto. }
  apply at_adv in A; [|exact HU|apply doc_utf8; auto]. rewrite <- P0 in A.
  destruct (open_run_tok U t cs void HU sc0 p0 (lv_name v) (lv_attrs v) (lv_pad v) s) as (sc1 & p1 & R & P & T1 & _ & _ & C & Q & K1 & K2); auto.
  { left. auto. }
  exists sc0, p0, sc1, p1. repeat (split; [solve [auto]|]). split.
  { rewrite P. unfold start_tag. rewrite !app_length. cbn [length bs]. lia. }
  split; [unfold open_text; rewrite app_length; lia|]. auto.
Qed.
Lemma opens_run vs v : forall sc p s, Forall (good_level U cs void) (vs ++ [v]) -> st sc = WithinContent ->
  at_ t (pos sc) (opens (vs ++ [v]) ++ s) ->
  exists sc0 p0 sc1 p1, run sc p sc0 p0 /\ run sc0 p0 sc1 p1 /\ st sc1 = WithinContent /\
    pos sc0 < pos sc1 /\ pos sc1 = pos sc + length (opens (vs ++ [v])) /\
    cur p1 = mkNode (Some (lv_name v)) (pos sc0) (pos sc1) [] false (Some (pos sc1)) None
               (attrs_from (pos sc0 + 1 + length (lv_name v)) (lv_attrs v)) /\
    parents p1 = cur p0 :: parents p0 /\ tok sc1 = StartTagClose /\ tok_off sc1 + 1 = pos sc1.
Proof.
  induction vs as [|w vs IH]; intros sc p s G S A; cbn [app] in *.
  - unfold opens in *. cbn [flat_map] in *. rewrite app_nil_r in *. apply level_run with (s := s); auto. inversion G; auto.
  - inversion G as [|? ? G1 G2]; subst. unfold opens in A. cbn [flat_map] in A. rewrite <- app_assoc in A.
    destruct (level_run w sc p _ G1 S A) as (sc0 & p0 & sc1 & p1 & R0 & R1 & S1 & _ & P1 & _).
    apply at_adv in A; [|exact HU|apply level_utf8; auto]. rewrite <- P1 in A.
    destruct (IH sc1 p1 s G2 S1 A) as (sc2 & p2 & sc3 & p3 & R2 & R3 & S3 & L3 & P3 & REST).
    exists sc2, p2, sc3, p3. split; [eapply run_trans; [exact R0|eapply run_trans; eauto]|]. repeat (split; [solve [auto]|]).
    split; [|exact REST]. unfold opens in *. cbn [flat_map]. rewrite app_length. lia.
Qed.
End Runs.

(** ** After the start tag *)
Section Main.
Variables (U : unicode) (t : str) (cs : bool) (void : list str) (roots : list node) (l : list token).
Hypothesis HU : Utf8 t.
Hypothesis HP : parse U t cs void = Ok roots.
Hypothesis HT : doc_tokens U t cs = Ok l.

Definition is_open (x : str) (a b : nat) (n : node) : Prop :=
  n_tag n = Some x /\ n_start n = a /\ n_ste n = Some b /\ n_ets n = None /\ n_closed n = false.
Definition was_open (e : nat) (x : str) (a b : nat) (n : node) : Prop :=
  n_tag n = Some x /\ n_start n = a /\ n_ste n = Some b /\ (forall i, n_ets n = Some i -> e <= i) /\
  ((n_closed n = false /\ e <= n_end n) \/ e < n_end n).
Lemma stays_open x a b sc1 p1 :
  run U t cs void (scanner_new 0 WithinContent) (mkP (node_new 0 (length t)) [] None None None) sc1 p1 ->
  pos sc1 <= length t -> st sc1 = WithinContent -> is_open x a b (cur p1) -> parents p1 <> [] ->
  exists n, In n (doc_nodes roots) /\ was_open (pos sc1) x a b n.
Proof.
  intros R L S O P. destruct (rest_of_run U t cs void _ _ _ R L HP) as (fuel & p' & E & ->).
  destruct (kept U t cs void HU (pos sc1) (is_open x a b) (was_open (pos sc1) x a b)) with (fuel := fuel) (y := sc1) (p := p1) (p' := p')
    as (n & Q & I); auto; try lia.
  - intros m e (Q1 & Q2 & Q3 & Q4 & Q5) B. split; [exact Q1|]. split; [exact Q2|]. split; [exact Q3|]. split.
    + cbn. rewrite Q4. discriminate.
    + left. split; [reflexivity|cbn; lia].
  - intros m e q (Q1 & Q2 & Q3 & Q4 & Q5) B1 B2. split; [exact Q1|]. split; [exact Q2|]. split; [exact Q3|]. split.
    + cbn. intros i Q. injection Q as ->. auto.
    + right. auto.
  - left. exists (cur p1). split; auto. exists [], (parents p1). auto.
  - exists n. auto.
Qed.
Lemma stays_ended n sc1 p1 :
  run U t cs void (scanner_new 0 WithinContent) (mkP (node_new 0 (length t)) [] None None None) sc1 p1 ->
  pos sc1 <= length t -> st sc1 = WithinContent -> ended n (cur p1 :: parents p1) -> In n (doc_nodes roots).
Proof.
  intros R L S O. destruct (rest_of_run U t cs void _ _ _ R L HP) as (fuel & p' & E & ->).
  destruct (kept U t cs void HU 0 (fun _ => False) (eq n)) with (fuel := fuel) (y := sc1) (p := p1) (p' := p')
    as (m & <- & I); auto; try lia; try tauto.
  right. exists n. auto.
Qed.
Lemma last_token p sc1 p1 : run U t cs void (scanner_new 0 WithinContent) p sc1 p1 -> 0 < pos sc1 ->
  In (token_of sc1) l.
Proof.
  intros R L. destruct (run_doc U t cs void HU _ _ _ _ R HT) as (m & l2 & -> & R2 & _).
  apply in_or_app. left. apply in_map. apply runs_last in R2 as [->|]; auto. cbn in L. lia.
Qed.
End Main.

(** ** The theorems *)
Lemma at_start t : Utf8 t -> at_ t (pos (scanner_new 0 WithinContent)) t.
Proof. intros H. split; [reflexivity|apply Bd_0; auto]. Qed.
Lemma not_void ps lang x : ~ In x (get_void_elements ps lang) -> ~ declared_void ps lang x.
Proof. intros H D. apply H. apply C43_void_elements. auto. Qed.

(** The '>' of a start tag was just typed. Whatever follows, the end tag with the name of the
    element is proposed, unless it is already there. *)
Definition ends_next (U : unicode) (cs : bool) (t : str) (o : nat) (x : str) : Prop :=
  exists y q, end_tag_written U t o (Some y) q /\ same U cs x y.
Theorem C66_start_tag : forall U d cs providers lang roots vs v s p,
  textdoc_ok d -> d_text d = opens (vs ++ [v]) ++ s ->
  Forall (good_level U cs (get_void_elements providers lang)) (vs ++ [v]) ->
  parse U (d_text d) cs (get_void_elements providers lang) = Ok roots ->
  offset_at d p = length (opens (vs ++ [v])) ->
  ~ ends_next U cs (d_text d) (offset_at d p) (lv_name v) ->
  do_tag_complete U d cs providers lang roots p = Ok (Some (bs "$0</" ++ lv_name v ++ bs ">")).
Proof.
  intros U d cs providers lang roots vs v s p HD ET G HP EO NE. set (void := get_void_elements providers lang) in *.
  assert (HU : Utf8 (d_text d)) by apply HD.
  destruct (node_facts _ _ _ _ _ HU HP) as (l & HT & _).
  pose proof (at_start _ HU) as A. rewrite ET in A at 2.
  destruct (opens_run U (d_text d) cs void HU vs v (scanner_new 0 WithinContent) (mkP (node_new 0 (length (d_text d))) [] None None None) s G eq_refl A)
    as (sc0 & p0 & sc1 & p1 & R0 & R1 & S1 & L1 & P1 & C1 & Q1 & K1 & K2).
  pose proof (run_trans _ _ _ _ _ _ _ _ _ _ R0 R1) as R.
  cbn [pos scanner_new] in P1. cbn [Nat.add] in P1.
  assert (LE : pos sc1 <= length (d_text d)) by (rewrite ET, app_length; lia).
  destruct (stays_open U (d_text d) cs void roots HU HP (lv_name v) (pos sc0) (pos sc1) sc1 p1 R LE S1) as (n & I & W1 & W2 & W3 & W4 & W5).
  { rewrite C1. repeat split. }
  { rewrite Q1. discriminate. }
  apply (C40_start_tag U d cs void roots l providers lang p (lv_name v) HD HP HT).
  exists n. split; auto. split; auto. split.
  { apply not_void. rewrite Forall_forall in G. apply (G v). apply in_or_app. cbn. auto. }
  split.
  { exists (token_of sc1). split; [eapply last_token; eauto; lia|]. cbn. split; auto. split; [lia|auto]. }
  split; [rewrite W3, EO, P1; auto|]. intros E. apply NE. destruct (C15_end_tags _ _ _ _ _ _ _ HU HP I E) as (_ & nm & Wr & SN).
  rewrite W1 in SN. unfold same_name in SN. destruct nm as [y|]; [|contradiction]. exists y, (n_end n). split; auto.
Qed.
Print Assumptions C66_start_tag.

(** The end tag is already there: nothing is proposed. *)
Theorem C66_no_second : forall U d cs providers lang roots vs v close pad s p,
  textdoc_ok d -> d_text d = opens (vs ++ [v]) ++ end_tag close pad ++ s ->
  Forall (good_level U cs (get_void_elements providers lang)) (vs ++ [v]) ->
  good_name U close -> blank pad -> same U cs close (lv_name v) ->
  parse U (d_text d) cs (get_void_elements providers lang) = Ok roots ->
  offset_at d p = length (opens (vs ++ [v])) ->
  forall r, do_tag_complete U d cs providers lang roots p <> Ok (Some r).
Proof.
  intros U d cs providers lang roots vs v close pad s p HD ET G GC BP SM HP EO r. set (void := get_void_elements providers lang) in *.
  assert (HU : Utf8 (d_text d)) by apply HD.
  destruct (node_facts _ _ _ _ _ HU HP) as (l & HT & _).
  pose proof (at_start _ HU) as A. rewrite ET in A at 2.
  destruct (opens_run U (d_text d) cs void HU vs v (scanner_new 0 WithinContent) (mkP (node_new 0 (length (d_text d))) [] None None None) _ G eq_refl A)
    as (sc0 & p0 & sc1 & p1 & R0 & R1 & S1 & L1 & P1 & C1 & Q1 & K1 & K2).
  pose proof (run_trans _ _ _ _ _ _ _ _ _ _ R0 R1) as R.
  cbn [pos scanner_new] in P1. cbn [Nat.add] in P1.
  assert (UO : Utf8 (opens (vs ++ [v]))).
  { clear - G. induction G; [apply u_nil|]. unfold opens. cbn [flat_map]. apply u_app; auto. eapply level_utf8; eauto. }
  apply at_adv in A; [|exact HU|exact UO]. cbn [pos scanner_new] in A. cbn [Nat.add] in A. rewrite <- P1 in A.
  destruct (end_run U (d_text d) cs void HU sc1 p1 (lv_name v) close pad s (cur p0) (parents p0)) as (sc2 & p2 & R2 & S2 & P2 & C2 & Q2 & _); auto.
  { left. auto. }
  { rewrite C1. reflexivity. }
  pose proof (run_trans _ _ _ _ _ _ _ _ _ _ R R2) as R3.
  pose proof (at_len _ _ _ A) as LA. rewrite app_length in LA.
  set (n := set_end (pos sc2) (set_ets (Some (pos sc1)) (set_closed true (cur p1)))) in *.
  assert (I : In n (doc_nodes roots)).
  { apply (stays_ended U (d_text d) cs void roots HU HP n sc2 p2); auto; [lia|].
    exists (cur p2). split; [cbn; auto|]. rewrite C2. unfold add_child. cbn [n_children set_children].
    rewrite flat_map_app, in_app_iff. right. cbn [flat_map]. rewrite preorder_eq. cbn. auto. }
  assert (FI : finished l (offset_at d p)).
  { destruct (run_doc U (d_text d) cs void HU _ _ _ _ R HT) as (m & l2 & -> & _ & F1 & F2). intros k K L.
    apply in_app_iff in K as [K|K].
    - apply in_map_iff in K as (y & <- & K). rewrite Forall_forall in F1. apply F1 in K. cbn. auto.
    - rewrite Forall_forall in F2. apply F2 in K. lia. }
  intros H. apply (C40_tag_complete U d cs void roots l providers lang p r HD HP HT FI) in H.
  destruct H as (x & [[(m & M & _ & _ & _ & M1 & M2) _]|[(k & y & K & KT & KE & _) _]]).
  - assert (E : n = m).
    { apply (ste_unique U d cs void roots HD HP n m (offset_at d p) I M); auto. unfold n. cbn. rewrite C1. cbn. congruence. }
    subst m. apply M2. unfold n. cbn. congruence.
  - assert (T1 : In (token_of sc1) l) by (apply (last_token U (d_text d) cs void l HU HT _ sc1 p1 R); lia).
    destruct (close_byte U d cs l HD HT (token_of sc1) T1) as [_ B]; [auto|cbn; lia|].
    destruct (slash_byte U d cs l HD HT k K KT) as [B1 B2]. cbn in B.
    replace (tk_off k + 1) with (tok_off sc1) in B2 by lia. rewrite B in B2. discriminate.
Qed.
Print Assumptions C66_no_second.

(** ** After '</' *)
Lemma nodes_closed h : forall o m, In m (flat_map preorder (nodes_from o h)) -> n_closed m = true.
Proof.
  revert h. fix IH 1. intros h o m I.
  destruct h as [x|x|w x|name attrs pad body close pad2|name attrs pad x pad2|name attrs pad|name attrs pad];
    try (destruct I; fail); cbn [nodes_from flat_map] in I; rewrite app_nil_r, preorder_eq in I; cbn [n_children] in I;
    destruct I as [<- |I]; try reflexivity; try (destruct I; fail).
  generalize dependent (o + length (start_tag name attrs pad (bs ">"))). revert body.
  fix IHl 1. intros body k I. destruct body as [|h r]; [destruct I|]. cbn [nodes_with] in I. rewrite flat_map_app, in_app_iff in I.
  destruct I as [I|I]; [exact (IH h _ _ I)|exact (IHl r _ I)].
Qed.
Lemma nodes_all_closed l : forall o m, In m (flat_map preorder (nodes_all o l)) -> n_closed m = true.
Proof.
  unfold nodes_all. induction l as [|h l IH]; intros o m I; [destruct I|]. cbn [nodes_with] in I.
  rewrite flat_map_app, in_app_iff in I. destruct I as [I|I]; [eapply nodes_closed; eauto|eauto].
Qed.
(** '</' was just typed after the content of an element. Whatever follows, the rest of its
    end tag is proposed, unless the '</' already begins it. *)
Theorem C66_end_tag : forall U d cs providers lang roots vs v body s p,
  let e := length (opens (vs ++ [v]) ++ render_all body) in
  textdoc_ok d -> d_text d = opens (vs ++ [v]) ++ render_all body ++ bs "</" ++ s ->
  Forall (good_level U cs (get_void_elements providers lang)) (vs ++ [v]) ->
  good_doc U cs (get_void_elements providers lang) body ->
  parse U (d_text d) cs (get_void_elements providers lang) = Ok roots ->
  offset_at d p = e + 2 ->
  ~ ends_next U cs (d_text d) e (lv_name v) ->
  do_tag_complete U d cs providers lang roots p =
  Ok (Some (lv_name v ++ if opt_beqN (nth_error s 0) (Some 62%N) then [] else bs ">")).
Proof.
  intros U d cs providers lang roots vs v body s p e HD ET G GB HP EO NE. set (void := get_void_elements providers lang) in *.
  assert (HU : Utf8 (d_text d)) by apply HD.
  destruct (node_facts _ _ _ _ _ HU HP) as (l & HT & _).
  pose proof (at_start _ HU) as A. rewrite ET in A at 2.
  set (i0 := mkP (node_new 0 (length (d_text d))) [] None None None).
  destruct (opens_run U (d_text d) cs void HU vs v (scanner_new 0 WithinContent) i0 _ G eq_refl A)
    as (sc0 & p0 & sc1 & p1 & R0 & R1 & S1 & L1 & P1 & C1 & Q1 & K1 & K2).
  pose proof (run_trans _ _ _ _ _ _ _ _ _ _ R0 R1) as R.
  cbn [pos scanner_new] in P1. cbn [Nat.add] in P1.
  assert (UO : Utf8 (opens (vs ++ [v]))).
  { clear - G. induction G; [apply u_nil|]. unfold opens. cbn [flat_map]. apply u_app; auto. eapply level_utf8; eauto. }
  apply at_adv in A; [|exact HU|exact UO]. cbn [pos scanner_new] in A. cbn [Nat.add] in A. rewrite <- P1 in A.
  destruct (all_run U (d_text d) cs void HU body sc1 p1 _ GB S1 A) as (sc2 & p2 & R2 & S2 & P2 & C2 & Q2 & _).
  { right. cbn [bs app]. eauto. }
  apply at_adv in A; [|exact HU|eapply doc_utf8; eauto]. rewrite <- P2 in A.
  assert (EE : pos sc2 = e) by (unfold e; rewrite app_length; lia).
  pose proof (at_len _ _ _ A) as LA. rewrite app_length in LA. cbn [length bs] in LA.
  set (sc3 := finish sc2 (pos sc2) EndTagOpen None (pos sc2 + 2) AfterOpeningEndTag).
  set (p3 := mkP (cur p2) (parents p2) (Some (pos sc2)) None (pending p2)).
  assert (R3 : run U (d_text d) cs void sc2 p2 sc3 p3).
  { apply one; [exact HU|..]; cbn [tok finish pos sc3]; try discriminate; try lia.
    - apply O_end_tag_open; auto.
      + left. auto.
      + eapply at_first. exact A.
      + rewrite (at_nth _ _ _ _ A). reflexivity.
    - apply A.
    - reflexivity. }
  pose proof (run_trans _ _ _ _ _ _ _ _ _ _ R R2) as RB. pose proof (run_trans _ _ _ _ _ _ _ _ _ _ RB R3) as RC.
  destruct (stays_open U (d_text d) cs void roots HU HP (lv_name v) (pos sc0) (pos sc1) sc2 p2 RB ltac:(lia) S2) as (y & I & W1 & W2 & W3 & W4 & W5).
  { rewrite C2, C1. repeat split. }
  { rewrite Q2, Q1. discriminate. }
  assert (IT : In (token_of sc3) l) by (apply (last_token U (d_text d) cs void l HU HT _ sc3 p3 RC); cbn; lia).
  assert (FI : finished l (offset_at d p)).
  { destruct (run_doc U (d_text d) cs void HU _ _ _ _ RC HT) as (m & l2 & -> & _ & F1 & F2). intros k K L.
    apply in_app_iff in K as [K|K].
    - apply in_map_iff in K as (z & <- & K). rewrite Forall_forall in F1. apply F1 in K. cbn. auto.
    - rewrite Forall_forall in F2. apply F2 in K. unfold sc3 in K. cbn in K. lia. }
  apply (C40_tag_complete U d cs void roots l providers lang p _ HD HP HT FI). exists (lv_name v). right. split.
  - exists (token_of sc3), y. split; auto. split; [reflexivity|]. split; [cbn; lia|]. split; auto.
    cbn [token_of tk_off sc3 finish tok_off].
    split; auto. split.
    { exists (pos sc1). split; auto. split; [lia|]. destruct W5 as [[W5 W6]|W5]; [|auto].
      destruct (Nat.eq_dec (n_end y) (pos sc2)); [right; auto|left; lia]. }
    split.
    { intros E. apply NE. destruct (C15_end_tags _ _ _ _ _ _ _ HU HP I E) as (_ & nm & Wr & SN).
      rewrite W1 in SN. unfold same_name in SN. destruct nm as [z|]; [|contradiction]. exists z, (n_end y). rewrite <- EE. auto. }
    intros m M (s1 & O1 & O2 & O3) NM. destruct (Nat.le_gt_cases (n_start m) (n_start y)) as [|GT]; auto. exfalso.
    destruct (rest_of_run U (d_text d) cs void _ _ _ RB ltac:(lia) HP) as (fuel & p' & E & ER).
    destruct (loop_starts U (d_text d) cs void HU _ _ _ _ E) as (ex & X1 & X2).
    destruct (run_runs U (d_text d) cs void HU _ _ _ _ R0) as (_ & _ & ex0 & _ & _ & Y1 & Y2). cbn in Y1.
    assert (IM : In (n_start m) (pstarts p')).
    { unfold pstarts. rewrite <- (starts_closed (d_text d)), <- ER. apply in_map. auto. }
    rewrite X1, in_app_iff in IM. destruct IM as [IM|IM].
    + unfold pstarts in IM. rewrite Q2, Q1 in IM. cbn [zstarts] in IM. fold (pstarts p0) in IM. rewrite Y1, in_app_iff in IM.
      destruct IM as [IM|IM].
      * rewrite Forall_forall in Y2. apply Y2 in IM. lia.
      * rewrite starts_eq, C2, C1 in IM. cbn [n_start n_children plus set_children app] in IM. destruct IM as [IM|IM]; [lia|].
        assert (exists x, In x (flat_map preorder (nodes_all (pos sc1) body)) /\ n_start x = n_start m) as (x & X & XE).
        { clear - IM. apply in_flat_map in IM as (c & C & IM). unfold starts in IM. apply in_map_iff in IM as (x & XE & X).
          exists x. split; auto. apply in_flat_map. eauto. }
        assert (IX : In x (doc_nodes roots)).
        { apply (stays_ended U (d_text d) cs void roots HU HP x sc2 p2 RB); auto; [lia|]. exists (cur p2). split; [cbn; auto|].
          rewrite C2, C1. exact X. }
        assert (x = m) by (apply (same_start U d cs void roots HD HP); auto). subst x.
        pose proof (nodes_all_closed _ _ _ X) as CL. apply bounds_all in X. destruct O3 as [O3|[_ O3]]; [lia|congruence].
    + rewrite Forall_forall in X2. apply X2 in IM.
      pose proof (span U d cs void roots HD HP m M) as (_ & _ & SP). rewrite O1 in SP. destruct (n_ets m); lia.
  - f_equal. replace (nth_error (d_text d) (offset_at d p)) with (nth_error s 0); [reflexivity|].
    rewrite EO, <- EE. rewrite (at_nth _ _ _ _ A). destruct s; reflexivity.
Qed.
Print Assumptions C66_end_tag.

(** ** Accepting the proposal *)
(** A well-formed document with a hole, as what stands before the hole and what stands after. *)
Fixpoint levels (c : ctx) : list level :=
  match c with
  | Here _ _ => []
  | Inside b name attrs pad c _ _ _ => mkLevel b name attrs pad :: levels c
  end.
Fixpoint front (c : ctx) : list html :=
  match c with Here b _ => b | Inside _ _ _ _ c _ _ _ => front c end.
Fixpoint back (c : ctx) : str :=
  match c with
  | Here _ a => render_all a
  | Inside _ _ _ _ c close pad2 a => back c ++ end_tag close pad2 ++ render_all a
  end.
Lemma fill_text c h : render_all (fill c h) = opens (levels c) ++ render_all (front c) ++ render h ++ back c.
Proof.
  induction c as [b a|b name attrs pad c IH close pad2 a]; cbn [fill levels front back].
  - rewrite render_app, render_cons. reflexivity.
  - rewrite render_app, render_cons. cbn [render]. change (flat_map render (fill c h)) with (render_all (fill c h)). rewrite IH.
    unfold opens. cbn [flat_map]. change (open_text (mkLevel b name attrs pad)) with (render_all b ++ start_tag name attrs pad (bs ">")). rewrite <- !app_assoc. reflexivity.
Qed.
Lemma hole_front c : hole c = length (opens (levels c) ++ render_all (front c)).
Proof.
  induction c as [b a|b name attrs pad c IH close pad2 a]; cbn [hole levels front]; auto. rewrite IH.
  unfold opens. cbn [flat_map]. change (open_text (mkLevel b name attrs pad)) with (render_all b ++ start_tag name attrs pad (bs ">")). rewrite !app_length. lia.
Qed.
Lemma fill_levels U cs void c h : good_doc U cs void (fill c h) ->
  Forall (good_level U cs void) (levels c) /\ good_doc U cs void (front c).
Proof.
  induction c as [b a|b name attrs pad c IH close pad2 a]; intros [G NS]; cbn [fill levels front] in *.
  - split; [constructor|]. apply Forall_app in G as [G _]. split; auto. eapply no_split_app_l; eauto.
  - apply Forall_app in G as [Gb G]. inversion G as [|? ? G1 _]; subst. inversion G1; subst.
    destruct IH as [I1 I2]; [split; auto|]. split; auto. constructor; auto.
    split; [split; auto; eapply no_split_app_l; eauto|]. cbn. auto 6.
Qed.

(** Typing the '>' of a start tag in a document that is well-formed but for the end tag of that
    element, and taking what is proposed, gives the well-formed document. *)
Definition insert (t : str) (o : nat) (x : str) : str := firstn o t ++ x ++ skipn o t.
Theorem C66_restores : forall U d cs providers lang roots c name attrs pad p,
  let void := get_void_elements providers lang in
  let whole := fill c (HElement name attrs pad [] name []) in
  let before := opens (levels c) ++ render_all (front c) ++ start_tag name attrs pad (bs ">") in
  textdoc_ok d -> good_doc U cs void whole -> d_text d = before ++ back c ->
  parse U (d_text d) cs void = Ok roots -> offset_at d p = length before ->
  ~ ends_next U cs (d_text d) (offset_at d p) name ->
  exists x, do_tag_complete U d cs providers lang roots p = Ok (Some (bs "$0" ++ x)) /\
    insert (d_text d) (offset_at d p) x = render_all whole /\
    parse U (insert (d_text d) (offset_at d p) x) cs void = Ok (nodes_all 0 whole).
Proof.
  intros U d cs providers lang roots c name attrs pad p void whole before HD G ET HP EO NE.
  destruct (fill_levels _ _ _ _ _ G) as [GL GF]. pose proof (good_hole _ _ _ _ _ G) as GH. inversion GH; subst.
  exists (bs "</" ++ name ++ bs ">"). set (v := mkLevel (front c) name attrs pad).
  assert (EB : before = opens (levels c ++ [v])).
  { unfold before, opens. rewrite flat_map_app. cbn [flat_map]. rewrite app_nil_r. reflexivity. }
  assert (GV : Forall (good_level U cs void) (levels c ++ [v])).
  { apply Forall_app. split; auto. constructor; auto. split; auto 8. }
  assert (INS : insert (d_text d) (offset_at d p) (bs "</" ++ name ++ bs ">") = render_all whole).
  { unfold insert. rewrite EO, ET. rewrite firstn_app, firstn_all, Nat.sub_diag, firstn_O, app_nil_r.
    rewrite skipn_app, skipn_all, Nat.sub_diag. cbn [skipn app]. unfold whole. rewrite fill_text. cbn [render flat_map app].
    unfold before, end_tag. rewrite <- !app_assoc. cbn [app]. reflexivity. }
  split; [|split; [exact INS|rewrite INS; apply C21_round_trip; auto]].
  rewrite (C66_start_tag U d cs providers lang roots (levels c) v (back c) p HD); auto; congruence.
Qed.
Print Assumptions C66_restores.
(** The same for '</' after the content. *)
Theorem C66_restores_end : forall U d cs providers lang roots c name attrs pad body p,
  let void := get_void_elements providers lang in
  let whole := fill c (HElement name attrs pad body name []) in
  let before := opens (levels c) ++ render_all (front c) ++ start_tag name attrs pad (bs ">") ++ render_all body in
  textdoc_ok d -> good_doc U cs void whole -> d_text d = before ++ bs "</" ++ back c -> nth_error (back c) 0 <> Some 62%N ->
  parse U (d_text d) cs void = Ok roots -> offset_at d p = length before + 2 ->
  ~ ends_next U cs (d_text d) (length before) name ->
  exists x, do_tag_complete U d cs providers lang roots p = Ok (Some x) /\
    insert (d_text d) (offset_at d p) x = render_all whole /\
    parse U (insert (d_text d) (offset_at d p) x) cs void = Ok (nodes_all 0 whole).
Proof.
  intros U d cs providers lang roots c name attrs pad body p void whole before HD G ET NG HP EO NE.
  destruct (fill_levels _ _ _ _ _ G) as [GL GF]. pose proof (good_hole _ _ _ _ _ G) as GH. inversion GH; subst.
  exists (name ++ bs ">"). set (v := mkLevel (front c) name attrs pad).
  assert (EB : before = opens (levels c ++ [v]) ++ render_all body).
  { unfold before, opens. rewrite flat_map_app. cbn [flat_map]. rewrite app_nil_r, <- app_assoc. change (open_text v) with (render_all (front c) ++ start_tag name attrs pad (bs ">")).
    rewrite <- !app_assoc. reflexivity. }
  assert (GV : Forall (good_level U cs void) (levels c ++ [v])).
  { apply Forall_app. split; auto. constructor; auto. split; auto 8. }
  assert (INS : insert (d_text d) (offset_at d p) (name ++ bs ">") = render_all whole).
  { unfold insert. rewrite EO, ET. set (q := before ++ bs "</").
    replace (before ++ bs "</" ++ back c) with (q ++ back c) by (unfold q; rewrite <- app_assoc; reflexivity).
    replace (length before + 2) with (length q) by (unfold q; rewrite app_length; reflexivity).
    rewrite firstn_app, firstn_all, Nat.sub_diag, firstn_O, app_nil_r.
    rewrite skipn_app, skipn_all, Nat.sub_diag. cbn [skipn]. unfold whole. rewrite fill_text. cbn [render].
    change (flat_map render body) with (render_all body). unfold q, before, end_tag. rewrite <- !app_assoc. cbn [app]. reflexivity. }
  split; [|split; [exact INS|rewrite INS; apply C21_round_trip; auto]].
  rewrite (C66_end_tag U d cs providers lang roots (levels c) v body (back c) p HD); auto.
  - destruct (nth_error (back c) 0) as [b|]; auto. cbn [opt_beqN]. destruct (b =? 62)%N eqn:Q; auto. apply N.eqb_eq in Q. congruence.
  - rewrite ET, EB, <- app_assoc. reflexivity.
  - split; auto.
  - rewrite EO, EB. reflexivity.
  - rewrite <- EB. exact NE.
Qed.
Print Assumptions C66_restores_end.

(** ** When the end tag is not there *)
Lemma ends_next_slash U cs t o x : ends_next U cs t o x -> sub t o (o + 2) = bs "</".
Proof. intros (y & q & (H & _) & _). exact H. Qed.
Lemma name_chars_good U n : good_name U n -> exists k, n = encode k /\ forallb scalar k = true /\ forall c, In c k -> name_char U c = true.
Proof.
  intros (c & r & C & F & (k & -> & K) & ->). exists (c :: k). rewrite encode_cons. split; auto. split.
  - cbn. rewrite C. apply forallb_forall. intros z Z. apply K. auto.
  - intros z [<-|Z]; [unfold name_char; rewrite (name_start_start _ _ F); auto|]. apply name_rest_char. apply K. auto.
Qed.
Lemma name_end U t p n b s q : at_ t p (n ++ b :: s) -> good_name U n -> stops b -> p <= q -> name_text U t p q -> q = p + length n.
Proof.
  intros [A (c1 & c2 & S1 & S2 & ET & EP)] G SB PQ (c & l & SC & SE & N1 & N2 & N3).
  destruct (name_chars_good U n G) as (k & -> & KS & KN).
  assert (E2 : encode c2 = encode k ++ b :: s).
  { rewrite <- A, ET, EP, skipn_app, skipn_all, Nat.sub_diag. reflexivity. }
  assert (US : Utf8 s).
  { apply (utf8_split_at (encode k) b s (stops_ascii _ SB)). rewrite <- E2. exists c2. auto. }
  destruct US as (ls & LS & ->).
  assert (EB : encode [b] = [b]) by (apply encode_ascii; cbn; pose proof (stops_ascii _ SB); lia).
  assert (C2 : c2 = k ++ b :: ls).
  { apply encode_inj; auto.
    - rewrite forallb_app, KS. cbn [forallb]. rewrite LS. unfold scalar. pose proof (stops_ascii _ SB). cbn. lia.
    - rewrite E2, encode_app. change (b :: ls) with ([b] ++ ls). rewrite encode_app, EB. reflexivity. }
  set (x := skipn (q - p) (encode c2)).
  assert (SE' : firstn (q - p) (encode c2) = encode (c :: l)).
  { rewrite <- SE. unfold sub. rewrite A, E2. reflexivity. }
  assert (C2' : c2 = (c :: l) ++ decode x).
  { rewrite <- (decode_encode c2 S2), <- (firstn_skipn (q - p) (encode c2)), SE'. fold x. rewrite decode_app by (exists (c :: l); auto).
    rewrite decode_encode by auto. reflexivity. }
  assert (NC : forall z, In z (c :: l) -> name_char U z = true).
  { intros z [<-|Z]; [unfold name_char; rewrite N1; auto|]. rewrite forallb_forall in N2. auto. }
  assert (LEN : length (encode c2) = length (encode k) + S (length (encode ls))) by (rewrite E2, app_length; reflexivity).
  assert (Q := C2'). rewrite C2 in Q. apply app_eq_app in Q as (z & [[Z1 Z2]|[Z1 Z2]]).
  - destruct z as [|y z].
    + rewrite app_nil_r in Z1. subst k. assert (F := f_equal (@length N) SE'). rewrite firstn_length in F. lia.
    + exfalso. assert (F : name_char U y = true) by (apply KN; rewrite Z1; apply in_or_app; cbn; auto).
      rewrite N3 in F; [discriminate|]. exists (c1 ++ c :: l), (z ++ b :: ls).
      assert (EC : c2 = (c :: l) ++ y :: z ++ b :: ls) by (rewrite C2, Z1, <- app_assoc; reflexivity).
      split; [|split].
      * rewrite <- app_assoc. rewrite <- EC, forallb_app, S1, S2. reflexivity.
      * rewrite <- app_assoc, <- EC, encode_app. exact ET.
      * rewrite encode_app, app_length, <- EP, <- SE', firstn_length.
        assert (F2 := f_equal (@length N) SE'). rewrite firstn_length in F2.
        assert (length (encode (c :: l)) < length (encode c2)).
        { rewrite EC, encode_app, app_length. rewrite (encode_cons y), app_length.
          assert (SY : scalar y = true).
          { rewrite Z1, forallb_app in KS. apply andb_true_iff in KS as [_ KS]. cbn [forallb] in KS. apply andb_true_iff in KS. tauto. }
          pose proof (encode1_nonempty y SY). lia. }
        lia.
  - destruct z as [|y z].
    + rewrite app_nil_r in Z1. assert (F := f_equal (@length N) SE'). rewrite firstn_length, Z1 in F. lia.
    + exfalso. cbn [app] in Z2. injection Z2 as -> Z2. assert (F : name_char U y = true) by (apply NC; rewrite Z1; apply in_or_app; cbn; auto).
      rewrite (stops_name U y SB) in F. discriminate.
Qed.

(** Another element's end tag comes next, or no end tag at all. *)
Theorem C66_other_end : forall U cs t o x close pad s, at_ t o (end_tag close pad ++ s) -> Utf8 t ->
  good_name U close -> blank pad -> ~ same U cs close x -> ~ ends_next U cs t o x.
Proof.
  intros U cs t o x close pad s A HU G BP NS (y & q & (_ & p & W & p1 & p2 & N & -> & _) & SM). apply NS.
  unfold end_tag in A. rewrite <- !app_assoc in A. apply at_adv in A; [|exact HU|apply ascii_utf8; reflexivity].
  change (length (bs "</")) with 2 in A. destruct (name_first_byte _ _ G) as (b & r & E & WB & _).
  assert (P : p = o + 2).
  { destruct W as (W1 & _ & W). destruct (Nat.eq_dec p (o + 2)); auto. destruct (W (o + 2)) as (b' & B1 & B2); [lia|lia|].
    rewrite E in A. rewrite (at_first _ _ _ _ A) in B1. injection B1 as <-. congruence. }
  subst p. assert (exists b2 r2, pad ++ bs ">" ++ s = b2 :: r2 /\ stops b2) as (b2 & r2 & E2 & SB).
  { rewrite blank_ws in BP. destruct pad as [|b2 pad]; cbn [app bs]; eexists; eexists; (split; [reflexivity|]).
    - right. left. reflexivity.
    - left. apply BP. cbn. auto. }
  assert (A2 := A). rewrite E2 in A2.
  assert (L : o + 2 <= p1).
  { destruct (Nat.le_gt_cases (o + 2) p1); auto. exfalso. destruct N as (c & l & SC & SE & _). unfold sub in SE.
    replace (p1 - (o + 2)) with 0 in SE by lia. cbn [firstn] in SE. rewrite encode_cons in SE. cbn [forallb] in SC.
    apply andb_true_iff in SC as [SC _]. pose proof (encode1_nonempty c SC). destruct (encode1 c); [cbn in *; lia|discriminate]. }
  rewrite (name_end U t (o + 2) close b2 r2 p1 A2 G SB L N) in SM. rewrite (at_sub _ _ _ _ A) in SM.
  unfold same in *. destruct cs; auto.
Qed.
Print Assumptions C66_other_end.

(** ** A document that meets the hypotheses *)
(** The cursor is after the second "<li>": "x<ul><li>one</li><li>|</ul> end". *)
Definition typed_providers : list provider := [html_provider demo_unicode (bs "html5") builtin_data false].
Definition li (body : list html) : html := HElement (bs "li") [] [] body (bs "li") [].
Definition typed_ctx : ctx :=
  Inside [HText (bs "x")] (bs "ul") [] [] (Here [li [HText (bs "one")]] []) (bs "ul") [] [HText (bs " end")].
Definition typed : str := bs "x<ul><li>one</li><li></ul> end".
Definition typed_slash : str := bs "x<ul><li>one</li><li>two</</ul> end".
Lemma typed_good body : body = [] \/ body = [HText (bs "two")] ->
  good_doc demo_unicode false (get_void_elements typed_providers (bs "html")) (fill typed_ctx (li body)).
Proof.
  intros HB. set (void := get_void_elements typed_providers (bs "html")).
  assert (NV : ~ In (bs "li") void /\ ~ In (bs "ul") void).
  { split; intros I; vm_compute in I; repeat (destruct I as [I|I]; [discriminate I|]); exact I. }
  assert (TG : forall s, s <> [] -> all_ascii s = true -> existsb (N.eqb 60) s = false -> good demo_unicode false void (HText s)).
  { intros s N A B. constructor. split; auto. split; [apply ascii_utf8; auto|]. intros I. rewrite <- not_true_iff_false in B. apply B.
    apply existsb_exists. exists 60%N. auto. }
  assert (LG : forall b, Forall (good demo_unicode false void) b -> no_split b -> good demo_unicode false void (li b)).
  { intros b F N. apply G_element; try name; try blanks; auto; try apply NV.
    - intros [H|H]; discriminate.
    - attrs_tac.
    - reflexivity. }
  assert (BG : Forall (good demo_unicode false void) body /\ no_split body).
  { destruct HB as [->| ->]; split; auto; try exact I. constructor; auto. apply TG; [discriminate|reflexivity|reflexivity]. }
  split; [|exact I]. unfold typed_ctx. cbn [fill app].
  constructor; [apply TG; [discriminate|reflexivity|reflexivity]|]. constructor.
  - apply G_element; try name; try blanks; auto; try apply NV.
    + intros [H|H]; discriminate.
    + attrs_tac.
    + constructor; [|constructor; [|constructor]].
      * apply LG; [|exact I]. constructor; auto. apply TG; [discriminate|reflexivity|reflexivity].
      * apply LG; apply BG.
    + exact I.
    + reflexivity.
  - constructor; auto. apply TG; [discriminate|reflexivity|reflexivity].
Qed.
Definition run_typed (s : str) (o : nat) : res (option str) :=
  let d := utf16_doc s in
  do roots <- parse demo_unicode s false (get_void_elements typed_providers (bs "html"));
  do_tag_complete demo_unicode d false typed_providers (bs "html") roots (position_at d o).
Example C66_demo :
  textdoc_ok (utf16_doc typed) /\
  typed = opens (levels typed_ctx) ++ render_all (front typed_ctx) ++ start_tag (bs "li") [] [] (bs ">") ++ back typed_ctx /\
  good_doc demo_unicode false (get_void_elements typed_providers (bs "html")) (fill typed_ctx (li [])) /\
  (exists roots, parse demo_unicode typed false (get_void_elements typed_providers (bs "html")) = Ok roots) /\
  offset_at (utf16_doc typed) (position_at (utf16_doc typed) 21) = 21 /\
  ~ ends_next demo_unicode false typed 21 (bs "li") /\
  run_typed typed 21 = Ok (Some (bs "$0</li>")).
Proof.
  split; [apply C27_contract, ascii_utf8; reflexivity|]. split; [reflexivity|]. split; [apply typed_good; auto|].
  split.
  { destruct (parse demo_unicode typed false (get_void_elements typed_providers (bs "html"))) as [r| |] eqn:E;
      [exists r; reflexivity|vm_compute in E; discriminate|vm_compute in E; discriminate]. }
  split; [vm_compute; reflexivity|]. split; [|vm_compute; reflexivity].
  assert (UT : Utf8 typed) by (apply ascii_utf8; reflexivity).
  apply (C66_other_end demo_unicode false typed 21 (bs "li") (bs "ul") [] (bs " end")); auto.
  - split; [reflexivity|]. exists (firstn 21 typed), (skipn 21 typed). repeat split; vm_compute; reflexivity.
  - name.
  - blanks.
  - unfold same. vm_compute. discriminate.
Qed.
Example C66_demo_end :
  typed_slash = opens (levels typed_ctx) ++ render_all (front typed_ctx) ++ start_tag (bs "li") [] [] (bs ">") ++
                render_all [HText (bs "two")] ++ bs "</" ++ back typed_ctx /\
  good_doc demo_unicode false (get_void_elements typed_providers (bs "html")) (fill typed_ctx (li [HText (bs "two")])) /\
  nth_error (back typed_ctx) 0 <> Some 62%N /\
  (exists roots, parse demo_unicode typed_slash false (get_void_elements typed_providers (bs "html")) = Ok roots) /\
  run_typed typed_slash 26 = Ok (Some (bs "li>")).
Proof.
  split; [reflexivity|]. split; [apply typed_good; auto|]. split; [vm_compute; discriminate|]. split; [|vm_compute; reflexivity].
  destruct (parse demo_unicode typed_slash false (get_void_elements typed_providers (bs "html"))) as [r| |] eqn:E;
    [exists r; reflexivity|vm_compute in E; discriminate|vm_compute in E; discriminate].
Qed.

(** ** Findings *)
(** When an element of the same name is typed inside another, right before the end tag of the
    outer one, that end tag is taken for its own and nothing is proposed. *)
Theorem C66_same_name_refuted : run_typed (bs "<div><div></div>") 10 = Ok None.
Proof. vm_compute. reflexivity. Qed.
(** Right after the '</' of an end tag that is already complete the name of the element around
    is proposed. *)
Theorem C66_complete_refuted : run_typed (bs "<ul><li></li></ul>") 10 = Ok (Some (bs "ul>")).
Proof. vm_compute. reflexivity. Qed.
