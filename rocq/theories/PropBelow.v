(** * C70: what stands below does not change the answers *)
From Verif Require Import SelectionRange Base BaseFacts Stream Scanner ScannerFacts ScanStep ScanProps ScanShape ScanResume ScanShift ParseOrder
  Tree Parser ParseSpec ParseInv ParseEnd PropParse ParseShift Render RenderFacts PropRender PropRename FormatFacts LayoutTree PropLocal TextDoc PropDoc TagServices PropTags DataManager
  BuiltinData Entities Hover PropHoverDoc Completion PropComplete PropEdits PropTagComplete PropAnswers SelAttr NodeScan MoveFacts MoveComplete PropAbove
  ScanCut BelowFacts BelowLoops BelowComplete.
From Verif Require PropTyped.
From Coq Require Import ZifyBool ZifyNat ZifyN.

(** The text below does not go on with text the markup ends with. *)
Definition apart (l : list html) (s : str) : Prop :=
  s = [] \/ (exists r, s = 60%N :: r) \/ forall l' x, l <> l' ++ [HText x].

(** ** Scanning the markup *)
Lemma run_steps U t cs void sc p sc1 p1 : run U t cs void sc p sc1 p1 -> exists m, steps U t cs sc m sc1.
Proof. induction 1 as [|sc p sc1 p1 sc2 p2 A B C D _ _ (m & IH)]; [exists []; constructor|]. exists (sc1 :: m). constructor; auto. Qed.
Lemma ends_app (a c : str) : (exists r, c = r ++ [62%N]) -> exists r, a ++ c = r ++ [62%N].
Proof. intros (r & ->). exists (a ++ r). apply app_assoc. Qed.
Lemma ends_gt' h : (forall x, h <> HText x) -> exists r, render h = r ++ [62%N].
Proof.
  assert (E : exists r, bs ">" = r ++ [62%N]) by (exists []; reflexivity).
  intros N. destruct h as [s|s|w s|name attrs pad body close pad2|name attrs pad s pad2|name attrs pad|name attrs pad]; cbn [render].
  - destruct (N s); auto.
  - do 2 apply ends_app. exists [45%N; 45%N]. reflexivity.
  - do 3 apply ends_app. exact E.
  - do 2 apply ends_app. unfold end_tag. do 3 apply ends_app. exact E.
  - do 2 apply ends_app. unfold end_tag. do 3 apply ends_app. exact E.
  - unfold start_tag. do 4 apply ends_app. exact E.
  - unfold start_tag. do 4 apply ends_app. exists [47%N]. reflexivity.
Qed.

Lemma ends_gt h U cs void : good U cs void h -> (forall x, h <> HText x) -> exists r, render h = r ++ [62%N].
Proof. intros _. apply ends_gt'. Qed.

Section Doc.
Variables (U : unicode) (cs : bool) (void : list str) (l : list html) (s : str).
Notation x := (render_all l).
Notation t := (x ++ s).
Notation b := (length x).
Hypothesis HG : good_doc U cs void l.
Hypothesis HU : Utf8 t.
Hypothesis HA : apart l s.

Lemma doc_bd : Bd t b.
Proof.
  assert (A : at_ t 0 (x ++ s)) by (split; [reflexivity|apply Bd_0; auto]).
  apply at_adv in A; [|exact HU|exact (above_utf8 _ _ _ _ HG)]. exact (proj2 A).
Qed.
Lemma doc_cut : sub t 0 b = x.
Proof. unfold sub. rewrite skipn_O, Nat.sub_0_r, firstn_app, Nat.sub_diag, firstn_all. cbn [firstn]. apply app_nil_r. Qed.
Lemma rest_utf8 : Utf8 s.
Proof. destruct (Bd_skipn _ _ doc_bd) as (c & C1 & C2). rewrite skipn_app, skipn_all, Nat.sub_diag in C2. cbn in C2. exists c. auto. Qed.
Lemma doc_steps : exists m z, steps U t cs (scanner_new 0 WithinContent) m z /\ pos z = b /\ st z = WithinContent /\ tok z <> Script /\ tok z <> Styles.
Proof.
  pose proof HG as [G NS]. set (p0 := mkP (node_new 0 (length t)) [] None None None).
  assert (K0 : calm (scanner_new 0 WithinContent)) by (split; discriminate).
  assert (A : at_ t (pos (scanner_new 0 WithinContent)) (x ++ s)) by (split; [reflexivity|apply Bd_0; auto]).
  assert (IR : Forall (item_runs U t cs void) l).
  { eapply Forall_impl; [|exact G]. intros h Gh. apply PropRender.item_ok; auto. }
  assert (FST : s = [] \/ (exists r, s = 60%N :: r) -> exists m z, steps U t cs (scanner_new 0 WithinContent) m z /\ pos z = b /\ st z = WithinContent /\ tok z <> Script /\ tok z <> Styles).
  { intros S. destruct (list_from_items U t cs void HU l IR (scanner_new 0 WithinContent) p0 s G NS eq_refl A S) as (z & p1 & R & S1 & P1 & _ & _ & K).
    apply run_steps in R as (m & R). destruct (K K0). exists m, z. auto. }
  destruct HA as [S|[S|S]]; auto. clear FST.
  assert (C : l = [] \/ exists l0 h0, l = l0 ++ [h0]) by (clear; induction l using rev_ind; eauto).
  destruct C as [E|(l0 & h0 & E)].
  { exists [], (scanner_new 0 WithinContent). split; [constructor|]. rewrite E. destruct K0. auto. }
  assert (ER : x = render_all l0 ++ render h0) by (rewrite E, render_app; cbn [render_all flat_map]; rewrite app_nil_r; reflexivity).
  rewrite ER in A at 2. rewrite <- app_assoc in A. rewrite E in G, NS. rewrite E in IR at 2.
  apply Forall_app in G as [G1 G2]. pose proof (Forall_inv G2) as Gh. apply Forall_app in IR as [I1 I2]. pose proof (Forall_inv I2) as Ih.
  pose proof (no_split_app_l _ _ NS) as NS1.
  assert (NT : forall y, h0 <> HText y) by (intros y Y; apply (S l0 y); rewrite E, Y; reflexivity).
  assert (LTS : render h0 ++ s = [] \/ exists r, render h0 ++ s = 60%N :: r).
  { destruct (render_lt _ _ _ _ Gh) as [[y Y]|(r & R)]; [destruct (NT y); auto|]. rewrite R. right. eexists. reflexivity. }
  destruct (list_from_items U t cs void HU l0 I1 (scanner_new 0 WithinContent) p0 _ G1 NS1 eq_refl A LTS) as (s1 & p1 & R1 & S1 & P1 & _).
  apply at_adv in A; [|exact HU|]. 2:{ clear - G1. induction G1; [apply u_nil|]. cbn [render_all flat_map]. apply u_app; auto. eapply render_utf8; eauto. }
  rewrite <- P1 in A. destruct (Ih s1 p1 s Gh S1 A) as (s2 & p2 & R2 & S2 & P2 & _ & _ & K); [intros [y Y]; destruct (NT y); auto|].
  pose proof (run_trans _ _ _ _ _ _ _ _ _ _ R1 R2) as R. apply run_steps in R as (m & R). destruct K. exists m, s2. split; auto. split; auto.
  rewrite P2, P1, ER, app_length. reflexivity.
Qed.

(** The tokens of the markup alone. *)
Lemma steps_runs z sc m : pos z = b -> st z = WithinContent -> tok z <> Script /\ tok z <> Styles -> steps U t cs sc m z -> runs U x true cs sc m z.
Proof.
  intros HZ HW HC. induction 1 as [|sc y m z B S N P R IH]; [constructor|]. 
  destruct (both_scan U t cs b doc_bd z HZ HW HC sc y m sc y) as (_ & _ & _ & X & _); auto; [constructor; auto|].
  rewrite doc_cut in X. constructor; auto.
Qed.
Lemma tokens_are m z : pos z = b -> st z = WithinContent -> tok z <> Script /\ tok z <> Styles -> steps U t cs (scanner_new 0 WithinContent) m z ->
  forall ts f, tokens U x true cs (scan_fuel x) (scanner_new 0 WithinContent) = Ok (ts, f) -> ts = map token_of m.
Proof.
  intros HZ HW HC R ts f T. destruct (PropTyped.runs_tokens _ _ _ _ _ _ (steps_runs _ _ _ HZ HW HC R) _ _ _ T) as (f' & l2 & -> & T2).
  destruct f' as [|f']; [discriminate|]. cbn [tokens] in T2. rewrite scan_at_end in T2 by (eauto using above_utf8; lia). cbn [bind finish tok] in T2.
  change (token_eqb EOS EOS) with true in T2. cbn iota in T2. apply Ok_inj in T2. inversion T2. apply app_nil_r.
Qed.
Notation both := (both U t cs b).
(** Scanning from an element, or from its end tag, is the same with and without the text below. *)
Definition entered (a : nat) : Prop := exists k s1, both (S k) (scanner_new a WithinContent) /\
  (forall e, scan U t e cs (scanner_new a WithinContent) = Ok s1) /\ (forall e, scan U x e cs (scanner_new a WithinContent) = Ok s1) /\
  both k s1 /\ tok_off s1 = a /\ a < b.
Lemma token_entered m z k : pos z = b -> st z = WithinContent -> tok z <> Script /\ tok z <> Styles -> steps U t cs (scanner_new 0 WithinContent) m z ->
  In k (map token_of m) -> tk_type k = StartTagOpen \/ tk_type k = EndTagOpen -> entered (tk_off k).
Proof.
  intros HZ HW HC R I K. apply in_map_iff in I as (y & <- & I). cbn [tk_type tk_off token_of] in *.
  revert R. generalize (scanner_new 0 WithinContent). induction m as [|y0 m IH]; [contradiction|]. intros sc R. destruct I as [->|I].
  - destruct (open_both U t cs b doc_bd z HZ HW HC sc y m R K) as (s1 & B1 & X1 & X2 & B2 & _ & T & _ & L).
    rewrite doc_cut in X2. exists (length m), s1. auto 10.
  - inversion R; subst. eapply IH; eauto.
Qed.
Lemma node_entered n : In n (doc_nodes (nodes_all 0 l)) -> entered (n_start n) /\ forall e, n_ets n = Some e -> entered e.
Proof.
  intros I. pose proof (C21_round_trip _ _ _ _ HG) as P. pose proof (above_utf8 _ _ _ _ HG) as HX.
  destruct doc_steps as (m & z & R & HZ & HW & HC). destruct (node_facts _ _ _ _ _ HX P) as (ts & T & _).
  assert (T' := T). unfold doc_tokens in T'. apply bind_ok in T' as ([ts' f] & T' & Q). apply Ok_inj in Q. cbn [fst] in Q. subst ts'.
  pose proof (tokens_are _ _ HZ HW HC R _ _ T') as E. split.
  - destruct (from_open _ _ _ _ _ HX P _ _ I T) as (pre & op & rest & _ & _ & F1 & F2 & F3 & _). rewrite <- F3. eapply token_entered; eauto.
    rewrite <- E, F1. apply in_or_app. right. left. auto.
  - intros e NE. destruct (parse_end_tags U x cs void HX _ _ _ P T') as (_ & RC & _). destruct (RC n e I NE) as (nm & Q).
    apply (proj2 (end_tags_opened x ts)) in Q as (k & K1 & K2 & <-). eapply token_entered; eauto. rewrite <- E. auto.
Qed.
End Doc.

(** ** What stands below *)
(** The document [d] is well-formed markup; with any text [s] below it is the document [d'].
    The places of [d] are the same places of [d']. *)
Record markup_below (U : unicode) (cs : bool) (void : list str) (l : list html) (s : str) (d d' : textdoc) (roots roots' : list node) : Prop := {
  mb_good : good_doc U cs void l;
  mb_apart : apart l s;
  mb_doc : textdoc_ok d;
  mb_doc' : textdoc_ok d';
  mb_text : d_text d = render_all l;
  mb_text' : d_text d' = render_all l ++ s;
  mb_pos : forall o, o <= length (d_text d) -> position_at d' o = position_at d o;
  mb_off : forall p, offset_at d p < length (d_text d) -> offset_at d' p = offset_at d p;
  mb_parse : parse U (d_text d) cs void = Ok roots;
  mb_parse' : parse U (d_text d') cs void = Ok roots'
}.

Lemma idx_at_app o front rest : Forall (fun n => o < n_start n) rest -> idx_at o (front ++ rest) = idx_at o front.
Proof.
  intros R. induction front as [|n f IH]; cbn [app idx_at]; [|rewrite IH; reflexivity].
  destruct R as [|n r N _]; cbn [idx_at]; [reflexivity|]. replace (o <? n_start n) with true by lia. reflexivity.
Qed.
Lemma idx_before_app o front rest : Forall (fun n => o <= n_start n) rest -> idx_before o (front ++ rest) = idx_before o front.
Proof.
  intros R. induction front as [|n f IH]; cbn [app idx_before]; [|rewrite IH; reflexivity].
  destruct R as [|n r N _]; cbn [idx_before]; [reflexivity|]. replace (o <=? n_start n) with true by lia. reflexivity.
Qed.
Lemma idx_at_le o f : idx_at o f <= length f.
Proof. induction f as [|n f IH]; cbn [idx_at length]; [lia|]. destruct (o <? n_start n); lia. Qed.
Lemma idx_before_le o f : idx_before o f <= length f.
Proof. induction f as [|n f IH]; cbn [idx_before length]; [lia|]. destruct (o <=? n_start n); lia. Qed.
Lemma find_at_app o front rest : Forall (fun n => o < n_start n) rest -> find_node_at (front ++ rest) o = find_node_at front o.
Proof.
  intros R. unfold find_node_at. rewrite idx_at_app by auto. pose proof (idx_at_le o front) as L. destruct (idx_at o front) as [|i]; [reflexivity|].
  rewrite nth_error_app1 by lia. reflexivity.
Qed.
Lemma find_before_app o front rest : Forall (fun n => o <= n_start n) rest -> find_node_before (front ++ rest) o = find_node_before front o.
Proof.
  intros R. unfold find_node_before. rewrite idx_before_app by auto. pose proof (idx_before_le o front) as L. destruct (idx_before o front) as [|i]; [reflexivity|].
  rewrite nth_error_app1 by lia. reflexivity.
Qed.
Lemma alnum_run_at y i : alnum_run (skipn i y) = if alnum_at y i then S (alnum_run (skipn (S i) y)) else 0.
Proof.
  unfold alnum_at. revert y. induction i as [|i IH]; intros [|c y]; try reflexivity.
  exact (IH y).
Qed.

(** If the two names of an element are equally long, the name of the end tag ends in front of the end of the element. *)
Lemma fit_list l : Forall (fun h => Forall same_width (elements h) -> forall o m x e, In m (flat_map preorder (nodes_from o h)) ->
    n_tag m = Some x -> n_ets m = Some e -> e + 2 + length x <= n_end m) l ->
  Forall same_width (flat_map elements l) ->
  forall o m x e, In m (flat_map preorder (nodes_all o l)) -> n_tag m = Some x -> n_ets m = Some e -> e + 2 + length x <= n_end m.
Proof.
  induction 1 as [|h l H _ IH]; intros W o m x e I T E; [destruct I|]. unfold nodes_all in I. cbn [nodes_with flat_map] in *.
  apply Forall_app in W as [W1 W2]. rewrite flat_map_app, in_app_iff in I. destruct I as [I|I]; [exact (H W1 _ _ _ _ I T E)|exact (IH W2 _ _ _ _ I T E)].
Qed.
Lemma fit h : Forall same_width (elements h) -> forall o m x e, In m (flat_map preorder (nodes_from o h)) ->
  n_tag m = Some x -> n_ets m = Some e -> e + 2 + length x <= n_end m.
Proof.
  revert h. fix IH 1. intros h W o m x e I T E.
  destruct h as [y|y|w y|name attrs pad body close pad2|name attrs pad y pad2|name attrs pad|name attrs pad];
    try (destruct I; fail); cbn [nodes_from flat_map] in I; rewrite app_nil_r, preorder_eq in I; cbn [n_children] in I;
    (destruct I as [<- |I]; [cbn [n_tag n_ets n_end] in *; try discriminate; apply Some_inj in T, E; subst|try (destruct I; fail)]).
  - pose proof (Forall_inv W) as Q. cbn [same_width] in Q. unfold end_tag. rewrite !app_length, Q. cbn. lia.
  - cbn [elements] in W. apply Forall_inv_tail in W. change (nodes_with nodes_from ?a body) with (nodes_all a body) in I.
    refine (fit_list body _ W _ _ _ _ I T E). clear - IH. revert body. fix IHl 1. intros body. destruct body as [|h l]; [constructor|].
    constructor; [exact (IH h)|apply IHl].
  - unfold end_tag. rewrite !app_length. cbn. lia.
Qed.
Lemma fit_all l : Forall same_width (flat_map elements l) ->
  forall m x e, In m (doc_nodes (nodes_all 0 l)) -> n_tag m = Some x -> n_ets m = Some e -> e + 2 + length x <= n_end m.
Proof. intros W m x e. apply fit_list; auto. clear. induction l; constructor; auto. exact (fit a). Qed.

Section Answers.
Variables (U : unicode) (cs : bool) (void : list str) (l : list html) (s : str) (d d' : textdoc) (roots roots' : list node).
Hypothesis M : markup_below U cs void l s d d' roots roots'.
Notation t := (d_text d').
Notation b := (length (render_all l)).
Let HG := mb_good _ _ _ _ _ _ _ _ _ M.
Let HD := mb_doc _ _ _ _ _ _ _ _ _ M.
Let HD' := mb_doc' _ _ _ _ _ _ _ _ _ M.
Let HP := mb_parse _ _ _ _ _ _ _ _ _ M.

Lemma bw_len : length (d_text d) = b.
Proof. rewrite (mb_text _ _ _ _ _ _ _ _ _ M). reflexivity. Qed.
Lemma bw_bd : Bd t b.
Proof. rewrite (mb_text' _ _ _ _ _ _ _ _ _ M). eapply doc_bd; eauto. rewrite <- (mb_text' _ _ _ _ _ _ _ _ _ M). apply HD'. Qed.
Lemma bw_cut : d_text d = sub t 0 b.
Proof. rewrite (mb_text' _ _ _ _ _ _ _ _ _ M), doc_cut. apply M. Qed.
Lemma bw_pos o : o <= b -> position_at d' o = position_at d o.
Proof. rewrite <- bw_len. apply M. Qed.
Lemma bw_roots : exists below, parse U s cs void = Ok below /\ roots = nodes_all 0 l /\ roots' = roots ++ map (shift b) below.
Proof.
  pose proof (mb_parse' _ _ _ _ _ _ _ _ _ M) as P'. pose proof (do_utf8 _ HD') as HU. rewrite (mb_text' _ _ _ _ _ _ _ _ _ M) in *.
  rewrite C65_rest in P' by (eauto using rest_utf8). destruct (parse U s cs void) as [below| |]; try discriminate. exists below. split; auto.
  pose proof HP as P. rewrite (mb_text _ _ _ _ _ _ _ _ _ M), (C21_round_trip _ _ _ _ HG) in P. apply Ok_inj in P, P'. subst. auto.
Qed.
Notation both := (both U t cs b).
Lemma bw_entered n : In n (doc_nodes roots) -> forall a, a = n_start n \/ n_ets n = Some a ->
  exists k s1, both (S k) (scanner_new a WithinContent) /\
  (forall e, scan U t e cs (scanner_new a WithinContent) = Ok s1) /\ (forall e, scan U (d_text d) e cs (scanner_new a WithinContent) = Ok s1) /\
  both k s1 /\ tok_off s1 = a /\ a < b.
Proof.
  intros I a A. destruct bw_roots as (below & _ & R & _). rewrite R in I. pose proof (do_utf8 _ HD') as HU.
  rewrite (mb_text _ _ _ _ _ _ _ _ _ M). rewrite (mb_text' _ _ _ _ _ _ _ _ _ M) in *.
  destruct (node_entered U cs void l s HG HU (mb_apart _ _ _ _ _ _ _ _ _ M) n I) as [E1 E2]. destruct A as [->|A]; [exact E1|exact (E2 _ A)].
Qed.

Variable p : position.
Notation o := (offset_at d p).
Hypothesis HO : o < b.
Lemma bw_off : offset_at d' p = o.
Proof. apply (mb_off _ _ _ _ _ _ _ _ _ M). rewrite bw_len. exact HO. Qed.
Lemma bw_at : find_node_at roots' o = find_node_at roots o.
Proof.
  destruct bw_roots as (below & _ & _ & ->). apply find_at_app. apply Forall_forall. intros n I. apply in_map_iff in I as (n0 & <- & _). rewrite mv_start. lia.
Qed.
Lemma bw_before : find_node_before roots' o = find_node_before roots o.
Proof.
  destruct bw_roots as (below & _ & _ & ->). apply find_before_app. apply Forall_forall. intros n I. apply in_map_iff in I as (n0 & <- & _). rewrite mv_start. lia.
Qed.
Lemma bw_found : find_node_at roots o = Ok None \/ exists n ps, find_node_at roots o = Ok (Some (n, ps)) /\ In n (doc_nodes roots) /\ n_start n <= o < n_end n.
Proof.
  destruct (find_at_innermost _ _ _ _ _ o (do_utf8 _ HD) HP) as [[E _]|(n & ps & E & (I & L & _) & _)]; [auto|]. right. exists n, ps. auto.
Qed.
Notation low_range := (low_range b d d' bw_pos).
Lemma bw_span n : In n (doc_nodes roots) -> n_start n < n_end n <= b.
Proof.
  clear HO p. intros I. destruct (C12_spans _ _ _ _ _ (do_utf8 _ HD) HP) as (_ & F). rewrite Forall_forall in F. destruct (F n I) as (F1 & F2 & _). rewrite bw_len in F2. lia.
Qed.

(** *** Tags *)
Lemma tag_name_room n tag : In n (doc_nodes roots) -> n_tag n = Some tag -> n_start n + 1 + length tag <= b.
Proof.
  intros I T. destruct (node_names _ _ _ _ _ _ _ (do_utf8 _ HD) HP I T) as (_ & (i & j & W & N & E) & _).
  destruct N as (N1 & N2 & _). destruct W as (W & _). rewrite bw_len in N2. subst tag. rewrite sub_length; rewrite ?bw_len; lia.
Qed.
Section Even.
Hypothesis HW : Forall same_width (flat_map elements l).
Lemma end_name_room n tag e : In n (doc_nodes roots) -> n_tag n = Some tag -> n_ets n = Some e -> e + 2 + length tag <= b.
Proof.
  intros I T E. pose proof (bw_span n I) as SP. destruct bw_roots as (below & _ & R & _). rewrite R in I. pose proof (fit_all l HW n tag e I T E). lia.
Qed.
Lemma below_rename name : do_rename d' p name roots' = do_rename d p name roots.
Proof.
  unfold do_rename. rewrite bw_off, bw_at. destruct bw_found as [->|(n & ps & -> & I & L)]; [reflexivity|]. cbn [bind].
  destruct (n_tag n) as [tag|] eqn:T; [|reflexivity]. destruct (negb _); [reflexivity|]. pose proof (tag_name_room n tag I T).
  rewrite low_range by lia. destruct (n_ets n) as [e|] eqn:E; [|reflexivity]. pose proof (end_name_room n tag e I T E). rewrite low_range by lia. reflexivity.
Qed.
Lemma ets_tag n e : In n (doc_nodes roots) -> n_ets n = Some e -> exists tag, n_tag n = Some tag.
Proof.
  intros I E. destruct bw_roots as (below & _ & R & _). destruct (C21_elements _ _ _ _ HG) as (r & P & F). rewrite (mb_text _ _ _ _ _ _ _ _ _ M) in HP.
  rewrite HP in P. apply Ok_inj in P. subst r. clear - F I. induction F as [|m h ms hs Q _ IH]; [contradiction|]. destruct I as [->|I]; [|auto]. exists (h_name h). apply Q.
Qed.
Lemma below_linked : find_linked_editing_ranges d' p roots' = find_linked_editing_ranges d p roots.
Proof.
  unfold find_linked_editing_ranges. rewrite bw_off, bw_at. destruct bw_found as [->|(n & ps & -> & I & L)]; [reflexivity|]. cbn [bind].
  destruct (n_ets n) as [e|] eqn:E; [|reflexivity]. destruct (ets_tag n e I E) as (tag & T). rewrite T. destruct (_ || _); [|reflexivity].
  pose proof (tag_name_room n tag I T). pose proof (end_name_room n tag e I T E). rewrite !low_range by lia. reflexivity.
Qed.
Lemma below_matching : find_matching_tag_position d' p roots' = find_matching_tag_position d p roots.
Proof.
  unfold find_matching_tag_position. rewrite bw_off, bw_at. destruct bw_found as [->|(n & ps & -> & I & L)]; [reflexivity|]. cbn [bind].
  destruct (n_tag n) as [tag|] eqn:T; [|reflexivity]. destruct (n_ets n) as [e|] eqn:E; [|reflexivity].
  pose proof (tag_name_room n tag I T). pose proof (end_name_room n tag e I T E). unfold in_start_name, in_end_name, between, usub.
  destruct ((n_start n + 1 <=? o) && _) eqn:Q1.
  - replace (1 <=? o) with true by lia. cbn [bind]. replace (n_start n <=? o - 1) with true by lia. cbn [bind]. rewrite bw_pos by lia. reflexivity.
  - destruct ((e + 2 <=? o) && _) eqn:Q2; [|reflexivity]. replace (2 <=? o) with true by lia. cbn [bind]. replace (e <=? o - 2) with true by lia. cbn [bind]. rewrite bw_pos by lia. reflexivity.
Qed.
End Even.
Lemma scan_to_low ty k s0 : both k s0 -> forall f f' i j, k < f' -> scan_to U (d_text d) cs f ty s0 = Ok (Some (i, j)) ->
  scan_to U t cs f' ty s0 = Ok (Some (i, j)) /\ i <= j <= b.
Proof.
  induction 1 as [s1 P W|k s1 s2 P B S1 S2 O N PR H IH]; intros f f' i j F E; destruct f as [|f]; try discriminate; destruct f' as [|f']; try lia; cbn [scan_to] in *.
  - rewrite (last_low U cs b d d' HD bw_bd bw_cut bw_pos _ _ P) in E. discriminate.
  - rewrite S1. rewrite (low_scan U cs b d d' bw_cut), S2 in E. cbn [bind] in *. pose proof N as N0. apply token_eqb_neq in N0. rewrite N0 in *.
    destruct (token_eqb _ ty); [|eapply IH; eauto; lia]. apply Ok_inj, Some_inj in E. split; [congruence|].
    destruct (scan_progress U t true cs (do_utf8 _ HD') _ _ (S1 true)) as (A & _). pose proof (both_le _ _ _ _ _ _ H). inversion E. lia.
Qed.
Lemma tag_range_low ty n a r : In n (doc_nodes roots) -> a = n_start n \/ n_ets n = Some a -> get_tag_name_range U d cs ty a = Ok (Some r) ->
  get_tag_name_range U d' cs ty a = Ok (Some r).
Proof.
  intros I A E. destruct (bw_entered n I a A) as (k & s1 & B & _). unfold get_tag_name_range in *. apply bind_ok in E as ([[i j]|] & E & Q); [|discriminate].
  pose proof (both_len _ _ _ _ _ _ B) as BL. cbn [scanner_new pos] in BL. destruct (low_fuel b d d' bw_bd bw_cut bw_pos) as [F F'].
  destruct (scan_to_low ty _ _ B (scan_fuel (d_text d)) (scan_fuel t) i j) as [E' L]; [lia|exact E|]. rewrite E'. cbn [bind]. rewrite low_range by lia. exact Q.
Qed.
Lemma below_highlights : find_document_highlights U d' p roots' cs = find_document_highlights U d p roots cs.
Proof.
  unfold find_document_highlights. rewrite bw_off, bw_at. destruct bw_found as [->|(n & ps & -> & I & L)]; [reflexivity|]. cbn [bind].
  destruct (n_tag n) as [tag|] eqn:T; [|reflexivity]. destruct (node_names _ _ _ _ _ _ _ (do_utf8 _ HD) HP I T) as (LT1 & (i & j & W & N & E) & Q).
  pose proof (range_start_name U d cs HD _ _ _ LT1 W N) as R. rewrite R, (tag_range_low _ n _ _ I (or_introl eq_refl) R). cbn [bind].
  destruct (is_self_closing n); [reflexivity|]. destruct (n_ets n) as [e|] eqn:ET; [|reflexivity]. cbn [unwrap bind].
  destruct (Q e eq_refl) as (y & i2 & j2 & q & PX & W2 & N2 & _). pose proof (range_end_name U d cs HD _ _ _ PX W2 N2) as R2.
  rewrite R2, (tag_range_low _ n _ _ I (or_intror ET) R2). reflexivity.
Qed.

(** *** Symbols *)
Lemma below_symbol n : (forall m, In m (preorder n) -> n_start m <= b /\ n_end m <= b) -> node_symbol d' n = node_symbol d n.
Proof.
  clear HO. revert n. fix IH 1. intros [tag st en ch cl se es at_] H. cbn [node_symbol]. destruct (H _ (or_introl eq_refl)) as [H1 H2]. cbn [n_start n_end] in H1, H2.
  rewrite low_range by auto. f_equal. rewrite preorder_eq in H. cbn [n_children] in H.
  assert (C : forall m, In m (flat_map preorder ch) -> n_start m <= b /\ n_end m <= b) by (intros m I; apply H; right; exact I). clear H H1 H2.
  revert ch C. fix IHl 1. intros [|c r] C; [reflexivity|]. cbn [map]. cbn [flat_map] in C. rewrite (IH c), (IHl r); auto; intros m I; apply C, in_or_app; auto.
Qed.
Lemma below_symbols : exists below, parse U s cs void = Ok below /\
  find_document_symbols2 d' roots' = find_document_symbols2 d roots ++ find_document_symbols2 d' (map (shift b) below) /\
  find_document_symbols d' roots' = find_document_symbols d roots ++ find_document_symbols d' (map (shift b) below).
Proof.
  clear HO p. destruct bw_roots as (below & P & _ & R). exists below. split; auto. rewrite R. unfold find_document_symbols, find_document_symbols2.
  assert (E : map (node_symbol d') roots = map (node_symbol d) roots).
  { apply map_ext_in. intros n I. apply below_symbol. intros m J. destruct (bw_span m); [|lia]. unfold doc_nodes. apply in_flat_map. eauto. }
  rewrite map_app, E, flat_map_app. auto.
Qed.

(** *** Hover *)
Lemma element_gt n : In n (doc_nodes roots) -> nth_error (d_text d) (n_end n - 1) = Some 62%N.
Proof.
  intros I. pose proof (bw_span n I) as SP. destruct (C21_elements _ _ _ _ HG) as (r & P & F). rewrite <- (mb_text _ _ _ _ _ _ _ _ _ M) in F, P.
  rewrite HP in P. apply Ok_inj in P. subst r. assert (G : exists r, sub (d_text d) (n_start n) (n_end n) = r ++ [62%N]).
  { assert (X : exists h, In h (flat_map elements l) /\ stands_for (d_text d) n h).
    { clear - F I. induction F as [|m h ms hs Q _ IH]; [contradiction|]. destruct I as [->|I]; [exists h; split; [left|]; auto|]. destruct (IH I) as (h' & A & B). exists h'. split; [right|]; auto. }
    destruct X as (h & I2 & Q). rewrite (sf_span _ _ _ Q). assert (NT : forall y, h <> HText y).
    { intros y ->. pose proof (sf_size _ _ _ Q) as Z. cbn [elements length] in Z. rewrite preorder_eq in Z. discriminate. }
    apply (ends_gt' h); auto. }
  destruct G as (r & G). assert (Z : length (sub (d_text d) (n_start n) (n_end n)) = n_end n - n_start n) by (apply sub_length; rewrite ?bw_len; lia).
  rewrite G, app_length in Z. cbn [length] in Z. apply (f_equal (fun q => nth_error q (length r))) in G. rewrite nth_error_app2, Nat.sub_diag in G by lia. cbn [nth_error] in G.
  rewrite <- G, sub_nth_error by lia. f_equal. lia.
Qed.
Lemma low_alnum i : i < b -> alnum_at t i = alnum_at (d_text d) i.
Proof. intros L. unfold alnum_at. rewrite (low_nth b d d' bw_cut) by auto. reflexivity. Qed.
Lemma left_low i : i <= b -> alnum_left t i = alnum_left (d_text d) i.
Proof. clear HO. induction i as [|i IH]; intros L; [reflexivity|]. cbn [alnum_left]. rewrite low_alnum, IH by lia. reflexivity. Qed.
Lemma left_le y i : alnum_left y i <= i.
Proof. clear HO. induction i as [|i IH]; [auto|]. cbn [alnum_left]. destruct (alnum_at y i); lia. Qed.
Lemma run_low j q : q < b -> alnum_at (d_text d) q = false -> j <= q ->
  alnum_run (skipn j t) = alnum_run (skipn j (d_text d)) /\ j + alnum_run (skipn j t) <= q.
Proof.
  clear HO. intros LQ A. remember (q - j) as m eqn:E. revert j E. induction m as [|m IH]; intros j E L; rewrite (alnum_run_at t j), (alnum_run_at (d_text d) j), low_alnum by lia.
  - replace j with q by lia. rewrite A. split; [reflexivity|lia].
  - destruct (alnum_at (d_text d) j); [|split; [reflexivity|lia]]. destruct (IH (S j)) as [H1 H2]; [lia|lia|]. rewrite H1 in *. split; [reflexivity|lia].
Qed.
Section Entity.
Variable n : node.
Hypothesis HN : In n (doc_nodes roots).
Hypothesis HL : n_start n <= o < n_end n.
Lemma entity_run : let k := alnum_left (d_text d) o in
  alnum_run (skipn k t) = alnum_run (skipn k (d_text d)) /\ k + alnum_run (skipn k t) < b.
Proof.
  intros k. pose proof (bw_span n HN) as SP. pose proof (element_gt n HN) as G. pose proof (left_le (d_text d) o) as L. fold k in L.
  destruct (run_low k (n_end n - 1)) as [R1 R2]; [lia|unfold alnum_at; rewrite G; reflexivity|lia|]. split; [exact R1|lia].
Qed.
Lemma entity_range_low : get_entity_range d' p o = get_entity_range d p o.
Proof.
  destruct entity_run as [R1 R2]. unfold get_entity_range. rewrite left_low by lia. set (k := alnum_left (d_text d) o) in *. apply bind_ext. intros c0 _.
  rewrite R1 in *. rewrite <- !(low_nth b d d' bw_cut) by lia. destruct k as [|k'] eqn:K; [reflexivity|]. rewrite <- (low_nth b d d' bw_cut) by lia. reflexivity.
Qed.
Lemma entity_name_low : filter_entity d' o = filter_entity d o.
Proof.
  destruct entity_run as [R1 R2]. unfold filter_entity. rewrite left_low by lia. set (k := alnum_left (d_text d) o) in *. rewrite R1 in *. destruct k as [|k'] eqn:K; [reflexivity|]. rewrite <- K in *.
  pose proof (low_sub b d d' bw_cut k (k + alnum_run (skipn k (d_text d)))) as S. unfold sub in S.
  replace (k + alnum_run (skipn k (d_text d)) - k) with (alnum_run (skipn k (d_text d))) in S by lia. rewrite S by lia. reflexivity.
Qed.
End Entity.
Lemma below_hover md parts providers lang ents opts :
  do_hover U d' cs md parts providers lang ents opts p roots' = do_hover U d cs md parts providers lang ents opts p roots.
Proof.
  unfold do_hover. rewrite bw_off, bw_at. destruct bw_found as [->|(n & ps & -> & I & L)]; [reflexivity|]. cbn [bind].
  destruct (n_tag n) as [tag|] eqn:T; [|reflexivity].
  destruct (match n_ets n with Some e => if e <=? o then Some e else None | None => None end) as [e|] eqn:E.
  - assert (E2 : n_ets n = Some e /\ e <= o) by (destruct (n_ets n) as [e0|]; [destruct (e0 <=? o) eqn:Q; [|discriminate]; apply Some_inj in E; subst; split; [auto|lia]|discriminate]).
    destruct E2 as [E1 E2]. destruct (bw_entered n I e (or_intror E1)) as (k & s1 & B & _).
    destruct (hover_range_low U cs b d d' bw_bd bw_cut bw_pos EndTag e _ o HO E2 B) as (r & -> & -> & _). reflexivity.
  - clear E. destruct (bw_entered n I _ (or_introl eq_refl)) as (k & s1 & B & S1 & S2 & B2 & _).
    destruct (hover_range_low U cs b d d' bw_bd bw_cut bw_pos StartTag _ _ o HO (proj1 L) B) as (r & -> & -> & _). cbn [bind]. destruct r as [r|]; [reflexivity|].
    destruct (hover_range_low U cs b d d' bw_bd bw_cut bw_pos AttributeName _ _ o HO (proj1 L) B) as (r & -> & -> & R). cbn [bind]. destruct r as [r|].
    { destruct (R r eq_refl) as (i & j & -> & L1 & L2 & B3 & B4). rewrite (low_content b d d' HD HD' bw_bd bw_cut bw_pos) by (auto; lia). reflexivity. }
    clear R. rewrite (entity_range_low n I L). apply bind_ext. intros er _. destruct er as [er|].
    { unfold get_entity_hover. rewrite (entity_name_low n I L). reflexivity. }
    destruct (hover_range_low U cs b d d' bw_bd bw_cut bw_pos AttributeValue _ _ o HO (proj1 L) B) as (r & -> & -> & R). cbn [bind]. destruct r as [r|]; [|reflexivity].
    destruct (R r eq_refl) as (i & j & -> & L1 & L2 & B3 & B4). rewrite (low_content b d d' HD HD' bw_bd bw_cut bw_pos) by (auto; lia).
    destruct (low_start b d d' HD HD' bw_bd bw_cut bw_pos i j) as [Q1 Q2]; [lia|auto|]. rewrite Q1, Q2. unfold scan_attr_and_attr_value. rewrite S1, S2. cbn [bind].
    pose proof (both_len _ _ _ _ _ _ B2) as BL. destruct (low_fuel b d d' bw_bd bw_cut bw_pos) as [F F'].
    rewrite (attr_low U cs b d d' bw_bd bw_cut bw_pos i k s1) with (f := scan_fuel (d_text d)) by (auto; lia). reflexivity.
Qed.

(** *** Completion *)
Lemma below_quote settings : do_quote_complete U d' cs settings roots' p = do_quote_complete U d cs settings roots p.
Proof.
  unfold do_quote_complete. rewrite bw_off, bw_before. destruct o as [|i] eqn:EO; [reflexivity|]. rewrite <- EO in *. rewrite <- (low_get1 b d d' bw_cut) by lia.
  destruct (get1 (d_text d) i) as [c|]; [|reflexivity]. destruct (c =? 61)%N; [|reflexivity].
  assert (Q : forall v, (do f <- find_node_before roots o; match f with None => Ok None | Some (x, _) => if open_below x o then do sc <- scan U t false cs (scanner_new (n_start x) WithinContent); quote_loop U d' cs (scan_fuel t) o v sc else Ok None end) =
    (do f <- find_node_before roots o; match f with None => Ok None | Some (x, _) => if open_below x o then do sc <- scan U (d_text d) false cs (scanner_new (n_start x) WithinContent); quote_loop U d cs (scan_fuel (d_text d)) o v sc else Ok None end)).
  { intros v. apply bind_ext. intros [[x ps]|] F; [|reflexivity]. destruct (open_below x o); [|reflexivity].
    destruct (slash_in U d cs void roots HD HP _ _ _ x F (or_introl eq_refl)) as (I & _). destruct (bw_entered x I _ (or_introl eq_refl)) as (k & s1 & B & S1 & S2 & B2 & _).
    rewrite S1, S2. cbn [bind]. pose proof (both_len _ _ _ _ _ _ B2) as BL. destruct (low_fuel b d d' bw_bd bw_cut bw_pos) as [F1 F2]. apply (quote_low U cs b d d' bw_bd bw_cut bw_pos o v k s1); auto; lia. }
  destruct (the_quotes settings); [reflexivity| |]; apply Q.
Qed.
Lemma ends_at_low n ty : In n (doc_nodes roots) -> ends_at U d' cs (n_start n) ty o = ends_at U d cs (n_start n) ty o.
Proof.
  intros I. unfold ends_at. destruct (bw_entered n I _ (or_introl eq_refl)) as (k & s1 & B & S1 & S2 & B2 & _). rewrite S1, S2. cbn [bind].
  pose proof (both_len _ _ _ _ _ _ B2) as BL. destruct (low_fuel b d d' bw_bd bw_cut bw_pos) as [F1 F2]. apply (ends_low U cs b d d' HD bw_bd bw_cut bw_pos ty o k s1); auto; lia.
Qed.
Lemma below_tag_complete providers lang : do_tag_complete U d' cs providers lang roots' p = do_tag_complete U d cs providers lang roots p.
Proof.
  unfold do_tag_complete. rewrite bw_off, bw_before. destruct o as [|i] eqn:EO; [reflexivity|]. rewrite <- EO in *. rewrite <- !(low_get1 b d d' bw_cut) by lia.
  destruct (get1 (d_text d) i) as [c|]; [|reflexivity]. destruct (c =? 62)%N.
  - apply bind_ext. intros [[x ps]|] F; [|reflexivity]. destruct (slash_in U d cs void roots HD HP _ _ _ x F (or_introl eq_refl)) as (I & _). rewrite (ends_at_low x) by auto. reflexivity.
  - destruct (c =? 47)%N; [|reflexivity]. apply bind_ext. intros [[x ps]|] F; [|reflexivity]. destruct (find _ _) as [y|] eqn:Y; [|reflexivity].
    apply find_some in Y as [Y _]. destruct (slash_in U d cs void roots HD HP _ _ _ y F Y) as (I & _). rewrite (ends_at_low y) by auto. reflexivity.
Qed.
Lemma data_low below : parse U s cs void = Ok below -> ~ has_data below -> forall ex, data_attrs roots' ex = data_attrs roots ex.
Proof.
  intros P ND ex. destruct bw_roots as (below' & P' & _ & ->). rewrite P in P'. apply Ok_inj in P'. subst below'. unfold data_attrs. rewrite flat_map_app, names_moved, fold_left_app.
  apply no_data. apply no_data_names. exact ND.
Qed.
Lemma below_complete md parts providers lang ents settings order below : parse U s cs void = Ok below -> ~ has_data below ->
  do_complete U d' cs md parts providers lang ents settings order roots' p = do_complete U d cs md parts providers lang ents settings order roots p.
Proof.
  intros P ND. unfold do_complete. rewrite bw_off, bw_before. apply bind_ext. intros [[n ps]|] F; [|reflexivity].
  destruct (slash_in U d cs void roots HD HP _ _ _ n F (or_introl eq_refl)) as (I & _). destruct (bw_entered n I _ (or_introl eq_refl)) as (k & s1 & B & S1 & S2 & B2 & _).
  rewrite S1, S2. cbn [bind]. pose proof (both_len _ _ _ _ _ _ B2) as BL. destruct (low_fuel b d d' bw_bd bw_cut bw_pos) as [F1 F2].
  apply (complete_loop_low U cs b d d' HD HD' bw_bd bw_cut bw_pos md parts providers lang ents settings order roots roots' (data_low below P ND) p o n ps HO) with (k := k); auto; try lia.
  - rewrite <- bw_off. apply PropAnswers.o_bd. exact HD'.
  - apply Forall_forall. intros y Y. destruct (slash_in U d cs void roots HD HP _ _ _ y F Y) as (IY & _). pose proof (bw_span y IY). lia.
  - exists (scanner_new (n_start n) WithinContent). split; [apply S1|]. exact (both_Bd _ _ _ _ bw_bd _ _ B).
Qed.
End Answers.

(** ** The answers *)
Theorem C70_rename : forall U cs void l s d d' roots roots' p name, markup_below U cs void l s d d' roots roots' ->
  Forall same_width (flat_map elements l) -> offset_at d p < length (render_all l) ->
  do_rename d' p name roots' = do_rename d p name roots.
Proof. intros. eapply below_rename; eauto. Qed.
Print Assumptions C70_rename.
Theorem C70_linked_editing : forall U cs void l s d d' roots roots' p, markup_below U cs void l s d d' roots roots' ->
  Forall same_width (flat_map elements l) -> offset_at d p < length (render_all l) ->
  find_linked_editing_ranges d' p roots' = find_linked_editing_ranges d p roots.
Proof. intros. eapply below_linked; eauto. Qed.
Print Assumptions C70_linked_editing.
Theorem C70_matching_tag : forall U cs void l s d d' roots roots' p, markup_below U cs void l s d d' roots roots' ->
  Forall same_width (flat_map elements l) -> offset_at d p < length (render_all l) ->
  find_matching_tag_position d' p roots' = find_matching_tag_position d p roots.
Proof. intros. eapply below_matching; eauto. Qed.
Print Assumptions C70_matching_tag.
Theorem C70_highlights : forall U cs void l s d d' roots roots' p, markup_below U cs void l s d d' roots roots' ->
  offset_at d p < length (render_all l) ->
  find_document_highlights U d' p roots' cs = find_document_highlights U d p roots cs.
Proof. intros. eapply below_highlights; eauto. Qed.
Print Assumptions C70_highlights.
(** The symbols of the markup come first, the other ones are those of the text below, where it now stands. *)
Theorem C70_symbols : forall U cs void l s d d' roots roots', markup_below U cs void l s d d' roots roots' ->
  exists below, parse U s cs void = Ok below /\
  find_document_symbols2 d' roots' = find_document_symbols2 d roots ++ find_document_symbols2 d' (map (shift (length (render_all l))) below) /\
  find_document_symbols d' roots' = find_document_symbols d roots ++ find_document_symbols d' (map (shift (length (render_all l))) below).
Proof. intros. eapply below_symbols; eauto. Qed.
Print Assumptions C70_symbols.
Theorem C70_hover : forall U cs void l s d d' roots roots' md parts providers lang ents opts p, markup_below U cs void l s d d' roots roots' ->
  offset_at d p < length (render_all l) ->
  do_hover U d' cs md parts providers lang ents opts p roots' = do_hover U d cs md parts providers lang ents opts p roots.
Proof. intros. eapply below_hover; eauto. Qed.
Print Assumptions C70_hover.
Theorem C70_completion : forall U cs void l s d d' roots roots' md parts providers lang ents settings order p below, markup_below U cs void l s d d' roots roots' ->
  offset_at d p < length (render_all l) -> parse U s cs void = Ok below -> ~ has_data below ->
  do_complete U d' cs md parts providers lang ents settings order roots' p = do_complete U d cs md parts providers lang ents settings order roots p.
Proof. intros. eapply below_complete; eauto. Qed.
Print Assumptions C70_completion.
Theorem C70_quote_completion : forall U cs void l s d d' roots roots' settings p, markup_below U cs void l s d d' roots roots' ->
  offset_at d p < length (render_all l) ->
  do_quote_complete U d' cs settings roots' p = do_quote_complete U d cs settings roots p.
Proof. intros. eapply below_quote; eauto. Qed.
Print Assumptions C70_quote_completion.
Theorem C70_tag_completion : forall U cs void l s d d' roots roots' providers lang p, markup_below U cs void l s d d' roots roots' ->
  offset_at d p < length (render_all l) ->
  do_tag_complete U d' cs providers lang roots' p = do_tag_complete U d cs providers lang roots p.
Proof. intros. eapply below_tag_complete; eauto. Qed.
Print Assumptions C70_tag_completion.

(** ** Every markup above every text that can be parsed *)
Definition no_crlf (c1 c2 : list N) : Prop := forall a r, c1 = a ++ [13%N] -> c2 <> 10%N :: r.
Lemma no_crlf_tail c c1 c2 : no_crlf (c :: c1) c2 -> no_crlf c1 c2.
Proof. intros H a r ->. apply (H (c :: a) r). reflexivity. Qed.
Lemma next_pos_app p c c1 c2 : no_crlf (c :: c1) c2 -> next_pos p c (c1 ++ c2) = next_pos p c c1.
Proof.
  intros H. unfold next_pos. replace (ends_line c (c1 ++ c2)) with (ends_line c c1); [reflexivity|]. unfold ends_line. destruct c1 as [|y c1]; [|reflexivity].
  destruct c2 as [|y c2]; [reflexivity|]. cbn [app]. destruct (c =? 13)%N eqn:C; [|reflexivity]. destruct (y =? 10)%N eqn:Y; [|reflexivity].
  apply N.eqb_eq in C, Y. subst. destruct (H [] c2 eq_refl eq_refl).
Qed.
Lemma pos_walk_low c1 c2 : forall o p, no_crlf c1 c2 -> o <= length (encode c1) -> pos_walk (c1 ++ c2) o p = pos_walk c1 o p.
Proof.
  induction c1 as [|c c1 IH]; intros o p H L.
  - cbn in L. destruct c2 as [|c c2]; [reflexivity|]. cbn [app pos_walk]. replace (o <? length (encode1 c)) with true; [reflexivity|].
    symmetry. apply Nat.ltb_lt. unfold encode1. repeat destruct (_ <? _)%N; cbn [length]; lia.
  - rewrite encode_cons, app_length in L. cbn [app pos_walk]. destruct (o <? _) eqn:Q; [reflexivity|]. rewrite next_pos_app by exact H. apply IH; [eapply no_crlf_tail; eauto|lia].
Qed.
Lemma off_walk_low c1 c2 q : forall p acc, no_crlf c1 c2 -> off_walk c1 q p acc < acc + length (encode c1) -> off_walk (c1 ++ c2) q p acc = off_walk c1 q p acc.
Proof.
  induction c1 as [|c c1 IH]; intros p acc H L.
  - cbn in L. lia.
  - rewrite encode_cons, app_length in L. cbn [app off_walk] in *. destruct (pos_ltb p q); [|reflexivity]. rewrite next_pos_app by exact H. apply IH; [eapply no_crlf_tail; eauto|lia].
Qed.
Lemma apart_crlf U cs void l s : good_doc U cs void l -> apart l s -> forall a r, render_all l = a ++ [13%N] -> s <> 10%N :: r.
Proof.
  intros [G _] A a r E S. destruct A as [A|[(r' & A)|A]]; try (rewrite A in S; discriminate).
  assert (C : l = [] \/ exists l0 h0, l = l0 ++ [h0]) by (clear; induction l using rev_ind; eauto).
  destruct C as [->|(l0 & h0 & ->)]; [destruct a; discriminate|]. rewrite render_app in E. cbn [render_all flat_map] in E. rewrite app_nil_r in E.
  destruct (ends_gt' h0) as (z & Z); [intros y ->; exact (A l0 y eq_refl)|]. rewrite Z, app_assoc in E. apply app_inj_tail in E as [_ E]. discriminate.
Qed.
Theorem C70_reached : forall U cs void l s below, good_doc U cs void l -> Utf8 s -> apart l s -> parse U s cs void = Ok below ->
  exists roots roots', markup_below U cs void l s (utf16_doc (render_all l)) (utf16_doc (render_all l ++ s)) roots roots'.
Proof.
  intros U cs void l s below G S A P. pose proof (above_utf8 _ _ _ _ G) as HX. pose proof (C65_rest U cs void l s G S) as R. rewrite P in R. pose proof (apart_crlf _ _ _ _ _ G A) as CR.
  eexists. eexists. destruct HX as (c1 & S1 & X). destruct S as (c2 & S2 & ->).
  assert (D1 : decode (render_all l) = c1) by (rewrite X; apply decode_encode; auto).
  assert (D2 : decode (render_all l ++ encode c2) = c1 ++ c2) by (rewrite X, <- encode_app; apply decode_encode; rewrite forallb_app, S1, S2; reflexivity).
  assert (NC : no_crlf c1 c2).
  { intros a r E1 E2. rewrite E1, encode_app in X. apply (CR (encode a) (encode r) X). rewrite E2. reflexivity. }
  constructor; auto.
  - apply C27_contract. exists c1. auto.
  - apply C27_contract. rewrite X, <- encode_app. exists (c1 ++ c2). rewrite forallb_app, S1, S2. auto.
  - intros o L. cbn [utf16_doc d_text position_at] in *. rewrite D1, D2. apply pos_walk_low; auto. rewrite <- X. exact L.
  - intros p L. cbn [utf16_doc d_text offset_at] in *. rewrite D1, D2 in *. apply off_walk_low; auto. rewrite <- X. exact L.
  - cbn [utf16_doc d_text]. exact (C21_round_trip _ _ _ _ G).
  - cbn [utf16_doc d_text]. exact R.
Qed.
Print Assumptions C70_reached.

(** ** Examples *)
Definition front : list html :=
  [HElement (bs "p") [mkHAttr (bs " ") (bs "class") (Bare [] (bs "x"))] [] [HText (bs "&am"); HElement (bs "b") [] [] [] (bs "b") []] (bs "p") []].
Lemma front_good : good_doc demo_unicode false html5_void front.
Proof.
  split; [|cbn; auto]. apply Forall_cons; [|apply Forall_nil].
  apply G_element; try name; try blanks; [intros [H|H]; discriminate|apply not_void; reflexivity| | | |reflexivity].
  - attrs_tac; attr_tac; cbn [good_value ha_value]. split; [blanks|]. split; [discriminate|].
    apply made_of_ascii with (g := val_char); [|reflexivity]. intros c H. unfold bare_char, val_char in *. destruct (is_uspace c); [discriminate|]. split; auto. cbn. lia.
  - apply Forall_cons; [|apply Forall_cons; [|apply Forall_nil]].
    + apply G_text. split; [discriminate|]. split; [apply ascii_utf8; reflexivity|cbn; intuition discriminate].
    + apply G_element; try name; try blanks; [intros [H|H]; discriminate|apply not_void; reflexivity|split; constructor|constructor|exact I|reflexivity].
  - cbn. auto.
Qed.
(** Below stands a page that is being typed. *)
Definition rest_page : str := bs "p;<ul><li></ul><i cla".
Example C70_demo :
  exists roots roots' below, markup_below demo_unicode false html5_void front rest_page (utf16_doc (render_all front)) (utf16_doc (render_all front ++ rest_page)) roots roots' /\
  Forall same_width (flat_map elements front) /\ parse demo_unicode rest_page false html5_void = Ok below /\ ~ has_data below /\ length below = 2 /\
  offset_at (utf16_doc (render_all front)) (mkPos 0 24) < length (render_all front) /\
  find_linked_editing_ranges (utf16_doc (render_all front ++ rest_page)) (mkPos 0 24) roots' =
    Ok (Some [mkRange (mkPos 0 1) (mkPos 0 2); mkRange (mkPos 0 23) (mkPos 0 24)]) /\
  exists i items, complete_in (render_all front ++ rest_page) (mkPos 0 13) roots' = Ok (i :: items).
Proof.
  destruct (parse demo_unicode rest_page false html5_void) as [below| |] eqn:P; [|vm_compute in P; discriminate|vm_compute in P; discriminate].
  destruct (C70_reached _ _ _ front rest_page below front_good ltac:(apply ascii_utf8; reflexivity)) as (roots & roots' & M); auto.
  { right. right. intros l' x E. destruct l' as [|h [|]]; discriminate. }
  exists roots, roots', below. split; [exact M|]. split; [repeat constructor|]. split; [reflexivity|].
  pose proof (mb_parse _ _ _ _ _ _ _ _ _ M) as P1. pose proof (mb_parse' _ _ _ _ _ _ _ _ _ M) as P2. cbn [d_text utf16_doc] in P1, P2. vm_compute in P, P1, P2.
  apply Ok_inj in P, P1, P2. clear M. subst below roots roots'. split.
  { intros (n & x & N1 & N2 & N3). vm_compute in N1. repeat destruct N1 as [<-|N1]; try contradiction; vm_compute in N2; repeat destruct N2 as [<-|N2]; try contradiction; discriminate N3. }
  split; [reflexivity|]. split; [vm_compute; lia|]. split; [vm_compute; reflexivity|].
  match goal with |- exists i items, ?x = _ => destruct x as [[|i items]| |] eqn:E end; eauto; vm_compute in E; discriminate.
Qed.

(** The condition on completion: the data attributes of the whole document are offered. *)
Definition data_rest : str := bs "<b data-x></b>".
Definition blank_tag : list html := [HElement (bs "p") [] (bs " ") [] (bs "p") []].
Lemma blank_tag_good : good_doc demo_unicode false html5_void blank_tag.
Proof.
  split; [|cbn; auto]. apply Forall_cons; [|apply Forall_nil].
  apply G_element; try name; try blanks; [intros [H|H]; discriminate|apply not_void; reflexivity|split; constructor|constructor|exact I|reflexivity].
Qed.
Theorem C70_data_attributes_refuted : exists roots roots',
  markup_below demo_unicode false html5_void blank_tag data_rest (utf16_doc (render_all blank_tag)) (utf16_doc (render_all blank_tag ++ data_rest)) roots roots' /\
  offset_at (utf16_doc (render_all blank_tag)) (mkPos 0 3) < length (render_all blank_tag) /\
  complete_in (render_all blank_tag ++ data_rest) (mkPos 0 3) roots' <> complete_in (render_all blank_tag) (mkPos 0 3) roots.
Proof.
  destruct (parse demo_unicode data_rest false html5_void) as [below| |] eqn:P; [|vm_compute in P; discriminate|vm_compute in P; discriminate].
  destruct (C70_reached _ _ _ blank_tag data_rest below blank_tag_good ltac:(apply ascii_utf8; reflexivity)) as (roots & roots' & M); auto.
  { right. left. eexists. reflexivity. }
  exists roots, roots'. split; [exact M|]. pose proof (mb_parse _ _ _ _ _ _ _ _ _ M) as P1. pose proof (mb_parse' _ _ _ _ _ _ _ _ _ M) as P2. cbn [d_text utf16_doc] in P1, P2. vm_compute in P1, P2.
  apply Ok_inj in P1, P2. clear M. subst roots roots'. split; [vm_compute; lia|].
  intros E. apply (f_equal (rmap (@length item))) in E. vm_compute in E. discriminate.
Qed.
Print Assumptions C70_data_attributes_refuted.
(** And the markup has to be well-formed: what stands below may close an element. *)
Theorem C70_open_element_refuted : exists roots roots',
  parse demo_unicode (bs "<p>") false html5_void = Ok roots /\ parse demo_unicode (bs "<p>" ++ bs "</p>") false html5_void = Ok roots' /\
  offset_at (utf16_doc (bs "<p>")) (mkPos 0 1) < length (bs "<p>") /\
  find_linked_editing_ranges (utf16_doc (bs "<p>")) (mkPos 0 1) roots = Ok None /\
  find_linked_editing_ranges (utf16_doc (bs "<p>" ++ bs "</p>")) (mkPos 0 1) roots' = Ok (Some [mkRange (mkPos 0 1) (mkPos 0 2); mkRange (mkPos 0 5) (mkPos 0 6)]).
Proof.
  eexists. eexists. split; [vm_compute; reflexivity|]. split; [vm_compute; reflexivity|]. split; [vm_compute; lia|]. split; vm_compute; reflexivity.
Qed.
Print Assumptions C70_open_element_refuted.
