(** * C83: closing what is open in an unfinished document *)
From Verif Require Import SelectionRange PropTags PropSelection Base BaseFacts Stream Scanner ScannerFacts ScanStep ScanProps ScanShape ScanPanic Tree
  Parser ParseSpec ParseInv ParseOrder PropParse TreeFacts PropTree ParseEnd PropEnd TextDoc PropDoc
  SelAttr TokenLoop NodeScan DataManager PropData BuiltinData Completion PropTagComplete PropAnswers
  Render RenderFacts PropRender PropRename ScanComplete Lexing PropTokens PropTagDoc PropHoverTree PropTyped PropSoup.
From Verif Require TokenRun.
From Coq Require Import ZifyBool ZifyNat ZifyN.

(** ** The tokens of a sequence of parts *)
Definition lex_part (x : part) : list piece :=
  match x with
  | Piece h => lex h
  | Opening name attrs pad => lex_start name attrs pad (StartTagClose, bs ">")
  | Closing name pad => lex_end name pad
  end.
Lemma joined_part x : joined (lex_part x) = part_text x.
Proof. destruct x; cbn [lex_part part_text]; [apply joined_lex|apply joined_start|apply joined_end]. Qed.
Lemma joined_soup l : joined (flat_map lex_part l) = soup_text l.
Proof. induction l as [|x l IH]; auto. cbn [flat_map]. rewrite joined_app, IH, joined_part. reflexivity. Qed.

Section Tokens.
Variables (U : unicode) (t : str) (emit cs : bool) (void : list str).
Hypothesis HU : Utf8 t.
Notation trun := (TokenRun.trun U t emit cs).
Lemma soup_trun : forall l sc s, Forall (good_part U cs void) l -> unsplit l -> st sc = WithinContent ->
  at_ t (pos sc) (soup_text l ++ s) -> (s = [] \/ exists s', s = 60%N :: s') ->
  exists sc1, trun sc (flat_map lex_part l) sc1 /\ st sc1 = WithinContent /\ pos sc1 = pos sc + length (soup_text l).
Proof.
  induction l as [|x l IH]; intros sc s G NS S A E.
  - exists sc. split; [apply TokenRun.trun_nil|]. cbn. auto.
  - apply Forall_cons_iff in G as [Gx Gl]. cbn [unsplit] in NS. destruct NS as [NS1 NS2]. unfold soup_text in A. cbn [flat_map] in A. rewrite <- app_assoc in A.
    assert (X : exists sc1, trun sc (lex_part x) sc1 /\ st sc1 = WithinContent /\ pos sc1 = pos sc + length (part_text x)).
    { destruct x as [h|name attrs pad|name pad]; cbn [lex_part part_text good_part] in *.
      - apply (TokenRun.item_ok U t emit cs void HU h Gx sc _ Gx S A). intros [y ->]. destruct l as [|z l]; [exact E|]. right.
        apply Forall_cons_iff in Gl as [Gz _]. destruct (part_lt U cs void z Gz (NS1 eq_refl)) as (r & R). cbn [flat_map]. rewrite R. eexists. reflexivity.
      - destruct Gx as (GN & NR & NV & GA & BP). destruct (TokenRun.open_run U t emit cs HU sc name attrs pad _ (or_introl S) A GN GA BP) as (s1 & R1 & P1 & S1 & _). exists s1. auto.
      - destruct Gx as (GN & BP). apply (TokenRun.end_run U t emit cs HU sc name pad _ (or_introl S) A GN BP). }
    destruct X as (s1 & R1 & S1 & P1). apply at_adv in A; [|auto|apply (part_utf8 U cs void); auto]. rewrite <- P1 in A.
    destruct (IH s1 s Gl NS2 S1 A E) as (s2 & R2 & S2 & P2). exists s2. split; [cbn [flat_map]; eapply TokenRun.trun_trans; eauto|]. split; auto.
    unfold soup_text in *. cbn [flat_map]. rewrite app_length. lia.
Qed.
End Tokens.
(** The tokens of a sequence are the pieces of its parts. *)
Theorem C83_tokens : forall U cs void emit l, good_soup U cs void l ->
  exists ks z, tokens U (soup_text l) emit cs (2 * length (soup_text l) + 2) (scanner_new 0 WithinContent) = Ok (ks, z) /\
    map (fun k => (tk_type k, tk_text (soup_text l) k)) ks = filter written (flat_map lex_part l) /\
    map seen ks = place 0 (filter written (flat_map lex_part l)) /\
    Forall (fun k => tk_err k = None) ks.
Proof.
  intros U cs void emit l [G NS]. pose proof (soup_utf8 _ _ _ _ G) as HU. set (t := soup_text l) in *. set (sc0 := scanner_new 0 WithinContent).
  assert (A : at_ t (pos sc0) (soup_text l ++ [])) by (rewrite app_nil_r; split; [reflexivity|apply Bd_0; auto]).
  destruct (soup_trun U t emit cs void HU l sc0 [] G NS eq_refl A (or_introl eq_refl)) as (s1 & R1 & S1 & P1). cbn [pos sc0 scanner_new] in P1. fold t in P1.
  set (n := length (filter written (flat_map lex_part l))).
  assert (L : n <= length t) by (unfold n, t; rewrite written_length, joined_soup; auto).
  assert (E : exists z, tokens U t emit cs (2 * length t + 2 - n) s1 = Ok ([], z)).
  { replace (2 * length t + 2 - n) with (Datatypes.S (2 * length t + 1 - n)) by lia. cbn [tokens].
    rewrite scan_internal by auto. unfold internal_scan. rewrite S1. unfold scan_content.
    rewrite eos_or_end by lia. cbn [bind tok finish]. change (token_eqb EOS EOS) with true. cbn iota. eauto. }
  destruct E as (z & E). destruct (trun_tokens _ _ _ _ _ _ _ R1 _ _ _ E) as (ks & T & Q1 & Q2 & Q3).
  exists ks, z. fold n in T. replace (2 * length t + 2 - n + n) with (2 * length t + 2) in T by lia.
  rewrite app_nil_r in T. split; auto.
Qed.
Print Assumptions C83_tokens.

(** ** The tree while an end tag is typed *)
(** Only the ends of the elements left open change: the last node, its last child, and so on. *)
Fixpoint stretch (z k : nat) (ns : list node) : list node :=
  match k with
  | 0 => ns
  | S k' => match ns with
            | [] => []
            | n0 :: _ => let n := last ns n0 in removelast ns ++ [set_end z (set_children (stretch z k' (n_children n)) n)]
            end
  end.
Lemma stretch_last z k A n : stretch z (S k) (A ++ [n]) = A ++ [set_end z (set_children (stretch z k (n_children n)) n)].
Proof.
  cbn [stretch]. destruct (A ++ [n]) as [|n0 r] eqn:E; [destruct A; discriminate|]. rewrite <- E. cbn zeta. rewrite removelast_last, last_last. reflexivity.
Qed.
Lemma stretch_app z k A ns : (k = 0 \/ ns <> []) -> stretch z k (A ++ ns) = A ++ stretch z k ns.
Proof.
  intros [-> |N]; [reflexivity|]. destruct k as [|k]; [reflexivity|]. destruct (exists_last N) as (B & n & ->). rewrite app_assoc, !stretch_last, app_assoc. reflexivity.
Qed.
Lemma collapse_out e k : forall c ps c' ps', collapse e (S k) c ps = Some (c', ps') ->
  exists c0 par, collapse e k c ps = Some (c0, par :: ps') /\ c' = add_child par (set_closed false (set_end e c0)).
Proof.
  induction k as [|k IH]; intros c ps c' ps' H.
  - destruct ps as [|par ps]; [discriminate|]. cbn [collapse] in H. apply Some_inj, pair_equal_spec in H as [<- <-]. exists c, par. auto.
  - destruct ps as [|par ps]; [discriminate|]. change (collapse e (S (S k)) c (par :: ps)) with (collapse e (S k) (add_child par (set_closed false (set_end e c))) ps) in H.
    apply IH in H as (c0 & par0 & H & ->). exists c0, par0. auto.
Qed.
Lemma collapse_stretch e z k : forall c ps c' ps', collapse e k c ps = Some (c', ps') ->
  collapse z k c ps = Some (set_children (stretch z k (n_children c')) c', ps').
Proof.
  induction k as [|k IH]; intros c ps c' ps' H.
  - cbn [collapse stretch] in *. rewrite H. apply Some_inj, pair_equal_spec in H as [<- <-]. destruct c; reflexivity.
  - apply collapse_out in H as (c0 & par & H & ->). apply IH in H. apply collapse_last in H. rewrite H. do 2 f_equal.
    assert (EC : forall v n, n_children (set_children v n) = v) by reflexivity. unfold add_child. rewrite EC, stretch_last. destruct c0; reflexivity.
Qed.

(** ** What is open at the end *)
Lemma piece_bounds U cs void h o m : good U cs void h -> In m (flat_map preorder (nodes_from o h)) ->
  o <= n_start m /\ n_end m <= o + length (render h) /\ n_closed m = true.
Proof.
  intros G I. assert (I' : In m (flat_map preorder (nodes_all o [h]))) by (cbn; rewrite ?app_nil_r; exact I).
  destruct (from_hole [h] o m I') as (c & k & E & N). assert (GD : good_doc U cs void [h]) by (split; [constructor; [exact G|constructor]|destruct h; cbn; auto]).
  destruct (nodes_within U cs void [h] GD c k m E (o + hole c) N) as [A B].
  destruct (lex_fill c) as (p & q & L & F). specialize (F k). rewrite <- E in F. cbn [flat_map] in F. rewrite app_nil_r in F.
  apply (f_equal (fun x => length (joined x))) in F. rewrite !joined_app, !app_length, !joined_lex in F.
  split; [lia|]. split; [lia|]. eapply PropTyped.nodes_closed; exact I.
Qed.
Section Open.
Variables (U : unicode) (cs : bool) (void : list str).
Notation denotes := (denotes U cs).
Lemma preorder_in m n : In m (preorder n) <-> m = n \/ In m (flat_map preorder (n_children n)).
Proof. rewrite preorder_eq. cbn [In]. split; intros [A|A]; auto. Qed.
Lemma denotes_end around o l e left ns : denotes around o l e left ns -> e = o + length (soup_text l).
Proof.
  induction 1; unfold soup_text in *; cbn [flat_map part_text length]; rewrite ?app_length, ?flat_map_app; try lia.
  subst z a. cbn [flat_map part_text]. rewrite !app_length in *. lia.
Qed.
Lemma end_tag_long name pad : 3 <= length (end_tag name pad).
Proof. unfold end_tag. rewrite !app_length. cbn [length bs]. lia. Qed.
Lemma start_tag_long name attrs pad stop : 1 <= length (start_tag name attrs pad stop).
Proof. unfold start_tag. rewrite !app_length. cbn [length bs]. lia. Qed.
Lemma denotes_bounds around o l e left ns : denotes around o l e left ns -> Forall (good_part U cs void) l ->
  forall m, In m (flat_map preorder ns) -> o <= n_start m /\ n_end m <= e.
Proof.
  induction 1 as [around o|around o h l e left ns D IH|around o name pad l e left ns N D IH|
    around o name attrs pad body b open kids close pad2 l e left ns a z D1 IH1 NO SN D2 IH2|around o name attrs pad body e open kids a D IH]; intros G m I.
  - destruct I.
  - apply Forall_cons_iff in G as [Gh Gl]. rewrite flat_map_app in I. apply in_app_iff in I as [I|I].
    + apply (piece_bounds U cs void) in I; auto. apply denotes_end in D. lia.
    + apply IH in I; auto. lia.
  - apply Forall_cons_iff in G as [Gh Gl]. apply IH in I; auto. lia.
  - apply Forall_cons_iff in G as [_ G]. apply Forall_app in G as [Gb G]. apply Forall_cons_iff in G as [_ Gl].
    apply denotes_end in D1, D2. pose proof (end_tag_long close pad2). cbn [flat_map] in I. apply in_app_iff in I as [I|I].
    + apply preorder_in in I as [-> |I]; cbn [n_start n_end n_children] in *; [lia|]. apply IH1 in I; auto. lia.
    + apply IH2 in I; auto. lia.
  - apply Forall_cons_iff in G as [_ G]. apply denotes_end in D. cbn [flat_map] in I. rewrite app_nil_r in I.
    apply preorder_in in I as [-> |I]; cbn [n_start n_end n_children] in *; [lia|]. apply IH in I; auto. lia.
Qed.
Lemma denotes_some around o l e left ns : denotes around o l e left ns -> left <> [] -> ns <> [].
Proof.
  induction 1; intros N; try discriminate; try congruence; auto. intros E. apply app_eq_nil in E as [_ E]. apply IHdenotes in N. auto.
Qed.
(** With [z] behind [e]: the elements open at [e] are those left open, the innermost last. *)
Lemma stretched around o l e left ns : denotes around o l e left ns -> Forall (good_part U cs void) l -> forall z, e < z ->
  let ns' := stretch z (length left) ns in
  (forall m, In m (flat_map preorder ns') -> o <= n_start m) /\
  (left = [] -> forall m, In m (flat_map preorder ns') -> ~ PropEnd.open_at e m) /\
  (forall left0 x, left = left0 ++ [x] -> exists y, In y (flat_map preorder ns') /\ PropEnd.open_at e y /\ n_tag y = Some x /\ n_ets y = None /\
     forall m, In m (flat_map preorder ns') -> PropEnd.open_at e m -> n_start m <= n_start y).
Proof.
  induction 1 as [around o|around o h l e left ns D IH|around o name pad l e left ns N D IH|
    around o name attrs pad body b open kids close pad2 l e left ns a z' D1 IH1 NO SN D2 IH2|around o name attrs pad body e open kids a D IH]; intros G z L; cbn zeta.
  - split; [intros m []|]. split; [intros _ m []|]. intros left0 x E. destruct left0; discriminate.
  - apply Forall_cons_iff in G as [Gh Gl]. destruct (IH Gl z L) as (I1 & I2 & I3). pose proof (denotes_end _ _ _ _ _ _ D) as DE.
    rewrite stretch_app by (destruct left; [auto|right; eapply denotes_some; [exact D|discriminate]]).
    assert (Q : forall m, In m (flat_map preorder (nodes_from o h)) -> o <= n_start m /\ ~ PropEnd.open_at e m).
    { intros m I. apply (piece_bounds U cs void) in I as (A & B & C); auto. split; [auto|]. intros (s & _ & _ & [X|[_ X]]); [lia|congruence]. }
    split; [|split].
    + intros m I. rewrite flat_map_app in I. apply in_app_iff in I as [I|I]; [apply Q; auto|apply I1 in I; lia].
    + intros E m I. rewrite flat_map_app in I. apply in_app_iff in I as [I|I]; [apply Q; auto|auto].
    + intros left0 x E. destruct (I3 left0 x E) as (y & Y1 & Y2 & Y3 & Y4 & Y5). exists y. rewrite flat_map_app. split; [apply in_app_iff; auto|]. split; [auto|]. split; [auto|]. split; [auto|].
      intros m I O. apply in_app_iff in I as [I|I]; [exfalso; eapply Q; eauto|auto].
  - apply Forall_cons_iff in G as [Gh Gl]. destruct (IH Gl z L) as (I1 & I2 & I3). split; [intros m I; apply I1 in I; lia|]. auto.
  - apply Forall_cons_iff in G as [_ G]. apply Forall_app in G as [Gb G]. apply Forall_cons_iff in G as [_ Gl]. destruct (IH2 Gl z L) as (I1 & I2 & I3).
    pose proof (denotes_end _ _ _ _ _ _ D2) as DE2. pose proof (denotes_end _ _ _ _ _ _ D1) as DE1. pose proof (end_tag_long close pad2) as EL.
    set (n := mkNode (Some name) o z' kids true (Some a) (Some b) (attrs_from (o + 1 + length name) attrs)).
    change (n :: ns) with ([n] ++ ns). rewrite stretch_app by (destruct left; [auto|right; eapply denotes_some; [exact D2|discriminate]]).
    assert (Q : forall m, In m (flat_map preorder [n]) -> o <= n_start m /\ ~ PropEnd.open_at e m).
    { intros m I. cbn [flat_map] in I. rewrite app_nil_r in I. apply preorder_in in I as [-> |I].
      - cbn [n n_start]. split; [auto|]. intros (s & _ & _ & [X|[_ X]]); cbn [n n_end n_closed] in X; [lia|congruence].
      - cbn [n n_children] in I. apply (denotes_bounds _ _ _ _ _ _ D1 Gb) in I. split; [lia|]. intros (s & _ & _ & [X|[X _]]); lia. }
    split; [|split].
    + intros m I. rewrite flat_map_app in I. apply in_app_iff in I as [I|I]; [apply Q; auto|apply I1 in I; lia].
    + intros E m I. rewrite flat_map_app in I. apply in_app_iff in I as [I|I]; [apply Q; auto|auto].
    + intros left0 x E. destruct (I3 left0 x E) as (y & Y1 & Y2 & Y3 & Y4 & Y5). exists y. rewrite flat_map_app. split; [apply in_app_iff; auto|]. split; [auto|]. split; [auto|]. split; [auto|].
      intros m I O. apply in_app_iff in I as [I|I]; [exfalso; eapply Q; eauto|auto].
  - apply Forall_cons_iff in G as [_ G]. destruct (IH G z L) as (I1 & I2 & I3). pose proof (denotes_end _ _ _ _ _ _ D) as DE.
    cbn [length]. match goal with |- context [stretch z (S _) [?n0]] => set (n := n0) end. rewrite (stretch_last z (length open) [] n : stretch z (S (length open)) [n] = _). cbn [app].
    set (n' := set_end z (set_children (stretch z (length open) (n_children n)) n)).
    assert (C : n_children n' = stretch z (length open) kids) by reflexivity.
    assert (SP : forall m, In m (flat_map preorder [n']) <-> m = n' \/ In m (flat_map preorder (stretch z (length open) kids))).
    { intros m. cbn [flat_map]. rewrite app_nil_r, preorder_in, C. tauto. }
    assert (ON : PropEnd.open_at e n') by (exists a; split; [reflexivity|]; split; [lia|left; exact L]).
    assert (SN : n_start n' = o) by reflexivity.
    split; [|split].
    + intros m I. apply SP in I as [-> |I]; [lia|]. apply I1 in I. lia.
    + discriminate.
    + intros left0 x E. destruct left0 as [|y0 left0]; cbn [app] in E.
      * injection E as <- ->. exists n'. split; [apply SP; auto|]. split; [auto|]. split; [reflexivity|]. split; [reflexivity|].
        intros m I O. apply SP in I as [-> |I]; [lia|]. exfalso. eapply I2; eauto.
      * injection E as -> E. destruct (I3 left0 x E) as (y & Y1 & Y2 & Y3 & Y4 & Y5). exists y. split; [apply SP; auto|]. split; [auto|]. split; [auto|]. split; [auto|].
        intros m I O. apply SP in I as [-> |I]; [|auto]. apply I1 in Y1. lia.
Qed.
(** The next end tag. *)
Lemma close_last around o l e left ns : denotes around o l e left ns -> forall left0 x, left = left0 ++ [x] ->
  exists ns', denotes around o (l ++ [Closing x []]) (e + length (end_tag x [])) left0 ns'.
Proof.
  induction 1 as [around o|around o h l e left ns D IH|around o name pad l e left ns N D IH|
    around o name attrs pad body b open kids close pad2 l e left ns a z D1 IH1 NO SN D2 IH2|around o name attrs pad body e open kids a D IH]; intros left0 x E.
  - destruct left0; discriminate.
  - destruct (IH _ _ E) as (ns' & D'). eexists. cbn [app]. apply D_piece. exact D'.
  - destruct (IH _ _ E) as (ns' & D'). eexists. cbn [app]. apply D_stray; [auto|exact D'].
  - destruct (IH2 _ _ E) as (ns' & D'). eexists. cbn [app]. rewrite <- app_assoc. cbn [app]. eapply D_closed; eauto.
  - destruct left0 as [|y left0]; cbn [app] in E.
    + injection E as -> ->. eexists. cbn [app]. eapply D_closed with (l := []); [exact D|intros y []|unfold Render.same; destruct cs; reflexivity|apply D_end].
    + injection E as -> E. destruct (IH _ _ E) as (ns' & D'). eexists. cbn [app]. apply D_open. exact D'.
Qed.
End Open.

Section Slash.
Variables (U : unicode) (cs : bool) (void : list str).
Variables (l : list part) (e : nat) (left : list str) (ns : list node).
Hypothesis HG : good_soup U cs void l.
Hypothesis HD : denotes U cs [] 0 l e left ns.
Let t := soup_text l ++ bs "</".
Lemma slash_utf8 : Utf8 t.
Proof. apply u_app; [eapply soup_utf8; apply HG|apply ascii_utf8; reflexivity]. Qed.
Lemma slash_len : e = length (soup_text l) /\ length t = e + 2.
Proof. pose proof (denotes_end _ _ _ _ _ _ _ _ HD) as E. unfold t. rewrite app_length. change (length (bs "</")) with 2. split; lia. Qed.
Lemma slash_parse : parse U t cs void = Ok (stretch (e + 2) (length left) ns).
Proof.
  pose proof slash_utf8 as HU. destruct slash_len as [LE LT]. destruct HG as [G NS].
  set (sc0 := scanner_new 0 WithinContent). set (p0 := mkP (node_new 0 (length t)) [] None None None).
  assert (A : at_ t 0 (soup_text l ++ bs "</")) by (split; [reflexivity|apply Bd_0; auto]).
  destruct (soup_run U t cs void HU _ _ _ _ _ _ HD G NS sc0 p0 (bs "</") eq_refl eq_refl A) as (s1 & p1 & R1 & S1 & P1 & E1 & C1 & _); [right; eexists; reflexivity|exact I|].
  apply at_adv in A; [|auto|eapply soup_utf8; eauto]. cbn [Nat.add] in A, E1. rewrite <- E1, <- P1 in A.
  set (s2 := finish s1 (pos s1) EndTagOpen None (pos s1 + 2) AfterOpeningEndTag).
  set (p2 := mkP (cur p1) (parents p1) (Some (pos s1)) None (pending p1)).
  assert (R2 : run U t cs void s1 p1 s2 p2).
  { apply one; [auto|..]; cbn [tok finish pos s2]; try discriminate; try lia.
    - apply O_end_tag_open; auto; [left; auto|eapply at_first; exact A|rewrite (at_nth _ _ _ _ A); reflexivity].
    - apply A.
    - reflexivity. }
  pose proof (run_trans _ _ _ _ _ _ _ _ _ _ R1 R2) as R.
  apply run_loop in R as (_ & k & K & E). cbn [pos sc0 scanner_new] in K. cbn [pos s2 finish] in K.
  unfold parse. fold sc0 p0.
  assert (F : exists f, scan_fuel t = k + S f) by (exists (scan_fuel t - k - 1); unfold scan_fuel; lia).
  destruct F as (f & ->). rewrite E. cbn [parse_loop]. assert (P2 : length t <= pos s2) by (cbn [pos s2 finish]; lia).
  rewrite scan_internal by auto. unfold internal_scan. cbn [st s2 finish]. unfold scan_after_opening_end_tag.
  rewrite eos_or_end by auto. cbn [bind tok finish]. cbn [token_eqb]. change (token_eqb EOS EOS) with true. cbn iota.
  cbn [bind cur parents p2]. apply (collapse_stretch e (e + 2)) in C1. rewrite <- LT in C1 |- *. rewrite (collapse_all t _ _ _ _ C1). reflexivity.
Qed.
Lemma slash_tokens : exists ks, doc_tokens U t cs = Ok ks /\ (forall o, finished ks o) /\
  exists k, In k ks /\ tk_type k = EndTagOpen /\ tk_off k = e /\ tk_end k = e + 2.
Proof.
  pose proof slash_utf8 as HU. destruct slash_len as [LE LT]. destruct HG as [G NS].
  set (sc0 := scanner_new 0 WithinContent).
  assert (A : at_ t (pos sc0) (soup_text l ++ bs "</")) by (split; [reflexivity|apply Bd_0; auto]).
  destruct (soup_trun U t true cs void HU l sc0 (bs "</") G NS eq_refl A) as (s1 & R1 & S1 & P1); [right; eexists; reflexivity|].
  apply at_adv in A; [|auto|eapply soup_utf8; eauto]. cbn [pos sc0 scanner_new] in A, P1. cbn [Nat.add] in A, P1. rewrite <- P1 in A.
  set (s2 := finish s1 (pos s1) EndTagOpen None (pos s1 + 2) AfterOpeningEndTag).
  assert (R2 : TokenRun.trun U t true cs s1 [(EndTagOpen, bs "</")] s2).
  { apply TokenRun.one with (r := []); try discriminate; try reflexivity; [auto| |rewrite app_nil_r; exact A].
    apply O_end_tag_open; auto; [left; auto|eapply at_first; exact A|rewrite (at_nth _ _ _ _ A); reflexivity]. }
  pose proof (TokenRun.trun_trans _ _ _ _ _ _ _ _ _ R1 R2) as R. set (ps := flat_map lex_part l ++ [(EndTagOpen, bs "</")]) in *.
  set (n := length (filter written ps)).
  assert (J : joined ps = t) by (unfold ps, t; rewrite joined_app, joined_soup; reflexivity).
  assert (L : n <= length t) by (unfold n; rewrite written_length, J; auto).
  assert (E : exists z, tokens U t true cs (2 * length t + 2 - n) s2 = Ok ([], z)).
  { replace (2 * length t + 2 - n) with (Datatypes.S (2 * length t + 1 - n)) by lia. cbn [tokens]. assert (P2 : length t <= pos s2) by (cbn [pos s2 finish]; lia).
    rewrite scan_internal by auto. unfold internal_scan. cbn [st s2 finish]. unfold scan_after_opening_end_tag.
    rewrite eos_or_end by auto. cbn [bind tok finish]. change (token_eqb EOS EOS) with true. cbn iota. eauto. }
  destruct E as (z & E). destruct (trun_tokens _ _ _ _ _ _ _ R _ _ _ E) as (ks & T & Q1 & _ & _).
  fold n in T. replace (2 * length t + 2 - n + n) with (2 * length t + 2) in T by lia. rewrite app_nil_r in T. cbn [pos sc0 scanner_new] in Q1.
  exists ks. split; [unfold doc_tokens; fold sc0; rewrite T; reflexivity|]. split.
  - intros o k K _. assert (I : In (tk_type k, tk_off k, tk_end k) (place 0 (filter written ps))) by (rewrite <- Q1; exact (in_map seen ks k K)).
    apply place_in in I as (p & w & q & _ & W & _ & B). destruct w; [congruence|]. cbn [length] in B. lia.
  - assert (I : In (EndTagOpen, e, e + 2) (place 0 (filter written ps))).
    { apply place_in. exists (flat_map lex_part l), (bs "</"), []. split; [reflexivity|]. split; [discriminate|]. rewrite joined_soup. split; [lia|reflexivity]. }
    rewrite <- Q1 in I. apply in_map_iff in I as (k & SK & K). exists k. unfold seen in SK. injection SK as S2 S3 S4. auto.
Qed.
End Slash.

(** ** The theorems *)
(** '</' was typed at the end of a sequence of parts: the end tag of the innermost element left
    open is proposed, and nothing if no element is. *)
Theorem C83_next : forall U cs void d l e left ns roots providers lang p s,
  good_soup U cs void l -> denotes U cs [] 0 l e left ns ->
  textdoc_ok d -> d_text d = soup_text l ++ bs "</" -> parse U (d_text d) cs void = Ok roots -> offset_at d p = length (d_text d) ->
  (do_tag_complete U d cs providers lang roots p = Ok (Some s) <-> exists left0 x, left = left0 ++ [x] /\ s = x ++ bs ">").
Proof.
  intros U cs void d l e left ns roots providers lang p s G D HD ET HP EO. assert (HP' := HP). rewrite ET in HP'. rewrite (slash_parse U cs void l e left ns G D) in HP'. apply Ok_inj in HP'.
  destruct (slash_tokens U cs void l e left ns G D) as (ks & T & FI & k0 & K0 & KT & KO & KE). rewrite <- ET in T. destruct (slash_len U cs l e left ns D) as [LE LT]. rewrite <- ET in LT.
  assert (TL : tiles 0 ks (length (d_text d))) by (eapply doc_tiles; eauto; apply HD).
  rewrite (C40_tag_complete U d cs void roots ks providers lang p s HD HP T (FI _)). rewrite EO.
  rewrite (proj2 (nth_error_None (d_text d) (length (d_text d))) (Nat.le_refl _)). cbn [opt_beqN].
  destruct (stretched U cs void [] 0 l e left ns D (proj1 G) (e + 2) ltac:(lia)) as (_ & S2 & S3). rewrite HP' in S2, S3.
  assert (TK : forall k, In k ks -> tk_end k = length (d_text d) -> k = k0).
  { intros k K E. eapply tiles_end_inj; eauto; [apply (FI (S (tk_off k)) k K); lia|lia|lia]. }
  split.
  - intros (x & [[(n & I & _ & _ & (k & K & TY & _ & SE) & S & _) ->]|[(k & y & K & TY & E & (Y1 & Y2 & Y3 & Y4) & N) ->]]).
    + exfalso. rewrite S in SE. apply Some_inj in SE. rewrite (TK k K (eq_sym SE)) in TY. congruence.
    + rewrite (TK k K E) in Y2. rewrite KO in Y2. rewrite (TK k K E), KO in Y4. destruct left as [|a left'] using rev_ind.
      * exfalso. eapply S2; eauto.
      * clear IHleft'. destruct (S3 left' a eq_refl) as (y' & Z1 & Z2 & Z3 & Z4 & Z5). exists left', a. split; [reflexivity|]. f_equal.
        assert (IO : innermost_open roots e y') by (split; [exact Z1|]; split; [exact Z2|]; split; [congruence|]; intros m M O _; apply Z5; auto).
        assert (IO' : innermost_open roots e y) by (split; [exact Y1|]; split; [exact Y2|]; split; [rewrite (TK k K E), KO in Y3; exact Y3|exact Y4]).
        assert (Q : y = y') by (eapply C40_unique; [apply HD|exact HP|exact IO'|exact IO]). congruence.
  - intros (left0 & x & E & ->). destruct (S3 left0 x E) as (y & Z1 & Z2 & Z3 & Z4 & Z5). exists x. right. split; [|reflexivity].
    exists k0, y. split; [auto|]. split; [auto|]. split; [lia|]. rewrite KO. split; [|auto]. split; [exact Z1|]. split; [exact Z2|]. split; [congruence|]. intros m M O _. apply Z5; auto.
Qed.
Print Assumptions C83_next.

(** Typing '</' at the end and accepting the proposal, again and again until there is none. *)
Inductive typed_out (U : unicode) (cs : bool) (void : list str) (providers : list provider) (lang : str) : str -> str -> Prop :=
| T_more t roots s t' :
    let d := utf16_doc (t ++ bs "</") in
    parse U (d_text d) cs void = Ok roots ->
    do_tag_complete U d cs providers lang roots (position_at d (length (d_text d))) = Ok (Some s) ->
    typed_out U cs void providers lang (t ++ bs "</" ++ s) t' -> typed_out U cs void providers lang t t'
| T_done t roots :
    let d := utf16_doc (t ++ bs "</") in
    parse U (d_text d) cs void = Ok roots ->
    (forall s, do_tag_complete U d cs providers lang roots (position_at d (length (d_text d))) <> Ok (Some s)) ->
    typed_out U cs void providers lang t t.
(** This writes the missing end tags of the document, and no others. *)
Theorem C83_closing : forall U cs void providers lang l e left ns,
  good_soup U cs void l -> denotes U cs [] 0 l e left ns ->
  typed_out U cs void providers lang (soup_text l) (soup_text (l ++ closers (rev left))).
Proof.
  intros U cs void providers lang l e left ns G D. revert l e ns G D. induction left as [|x left IH] using rev_ind; intros l e ns G D.
  all: pose proof (slash_utf8 U cs void l G) as HU; set (d := utf16_doc (soup_text l ++ bs "</")); pose proof (C27_contract _ HU) as HD; fold d in HD.
  all: assert (EO : offset_at d (position_at d (length (d_text d))) = length (d_text d)) by
    (apply (proj1 (C27_positions _ HU)); [unfold is_boundary; cbn [d d_text utf16_doc]; rewrite Nat.eqb_refl, ?orb_true_r; auto|auto]).
  all: pose proof (slash_parse U cs void l e _ ns G D) as HP; change (soup_text l ++ bs "</") with (d_text d) in HP.
  - cbn [rev closers map]. rewrite app_nil_r. eapply T_done; [exact HP|]. intros s H. fold d in H.
    apply (C83_next U cs void d l e [] ns _ providers lang _ s G D HD eq_refl HP EO) in H as (left0 & y & E & _). destruct left0; discriminate.
  - eapply T_more; [exact HP|fold d|].
    + apply (C83_next U cs void d l e (left ++ [x]) ns _ providers lang _ (x ++ bs ">") G D HD eq_refl HP EO). eauto.
    + destruct (close_last U cs [] 0 l e _ ns D left x eq_refl) as (ns' & D'). pose proof (left_good U cs void _ _ _ _ _ _ D (proj1 G)) as GL. apply Forall_app in GL as [_ GL].
      specialize (IH (l ++ closers [x]) _ ns' (unsplit_good U cs void l [x] G GL) D'). rewrite rev_app_distr. cbn [rev app closers map] in *.
      replace (soup_text l ++ bs "</" ++ x ++ bs ">") with (soup_text (l ++ [Closing x []])) by (unfold soup_text; rewrite flat_map_app; cbn [flat_map part_text]; unfold end_tag; rewrite app_nil_r; reflexivity).
      rewrite <- app_assoc in IH. exact IH.
Qed.
Print Assumptions C83_closing.

(** *** The end of a start tag *)
Lemma last_skip (A : list part) x y B : last (A ++ y :: B) x = last (y :: B) x.
Proof. induction A as [|a A IH]; [reflexivity|]. cbn [app]. rewrite <- IH. destruct (A ++ y :: B) eqn:E; [destruct A; discriminate|reflexivity]. Qed.
Lemma last_cons (a x : part) l : l <> [] -> last (a :: l) x = last l x.
Proof. destruct l; [congruence|reflexivity]. Qed.
Lemma opened U cs name attrs pad around o l e left ns : denotes U cs around o l e left ns ->
  last l (Closing [] []) = Opening name attrs pad ->
  exists n, In n (flat_map preorder ns) /\ n_tag n = Some name /\ n_ste n = Some e /\ n_ets n = None.
Proof.
  induction 1 as [around o|around o h l e left ns D IH|around o nm pd l e left ns N D IH|
    around o nm ats pd body b open kids close pad2 l e left ns a z D1 IH1 NO SN D2 IH2|around o nm ats pd body e open kids a D IH]; intros E.
  - discriminate.
  - destruct l as [|y l]; [discriminate|]. rewrite last_cons in E by discriminate. destruct (IH E) as (n & I & Q). exists n. rewrite flat_map_app, in_app_iff. auto.
  - destruct l as [|y l]; [discriminate|]. rewrite last_cons in E by discriminate. auto.
  - rewrite app_comm_cons, last_skip in E. destruct l as [|y l]; [discriminate|]. rewrite last_cons in E by discriminate. destruct (IH2 E) as (n & I & Q).
    exists n. cbn [flat_map]. rewrite in_app_iff. auto.
  - destruct body as [|y body].
    + cbn [last] in E. injection E as -> -> ->. pose proof (denotes_end _ _ _ _ _ _ _ _ D) as DE. cbn in DE. rewrite Nat.add_0_r in DE. subst e.
      eexists. split; [left; reflexivity|]. auto.
    + rewrite last_cons in E by discriminate. destruct (IH E) as (n & I & Q). exists n. split; [|exact Q]. cbn [flat_map]. rewrite app_nil_r. apply preorder_in. right. exact I.
Qed.
(** '>' was typed at the end of a start tag that ends the sequence: its end tag is proposed. *)
Theorem C83_start_tag : forall U cs void d l name attrs pad roots providers lang p,
  good_soup U cs void (l ++ [Opening name attrs pad]) -> ~ declared_void providers lang name ->
  textdoc_ok d -> d_text d = soup_text (l ++ [Opening name attrs pad]) -> parse U (d_text d) cs void = Ok roots -> offset_at d p = length (d_text d) ->
  do_tag_complete U d cs providers lang roots p = Ok (Some (bs "$0</" ++ name ++ bs ">")).
Proof.
  intros U cs void d l name attrs pad roots providers lang p G NV HD ET HP EO. destruct (C82_parse U cs void _ G) as (left & ns & D & P).
  rewrite <- ET, HP in P. apply Ok_inj in P. subst ns. destruct (opened U cs name attrs pad _ _ _ _ _ _ D) as (n & I & N1 & N2 & N3); [rewrite last_skip; reflexivity|].
  destruct (C83_tokens U cs void true _ G) as (ks & z & T & _ & SE & _). rewrite <- ET in T, N2.
  assert (T' : doc_tokens U (d_text d) cs = Ok ks) by (unfold doc_tokens; rewrite T; reflexivity).
  apply (C40_start_tag U d cs void roots ks providers lang p name HD HP T'). exists n. split; [exact I|]. split; [auto|]. split; [auto|]. rewrite EO.
  split; [|split; [auto|congruence]].
  assert (K : In (StartTagClose, length (d_text d) - 1, length (d_text d)) (place 0 (filter written (flat_map lex_part (l ++ [Opening name attrs pad]))))).
  { apply place_in. exists (flat_map lex_part l ++ [(StartTagOpen, bs "<"); (StartTag, name)] ++ flat_map lex_attr attrs ++ [(Whitespace, pad)]), (bs ">"), [].
    split; [rewrite flat_map_app; cbn [flat_map lex_part]; unfold lex_start; rewrite app_nil_r, <- !app_assoc; reflexivity|]. split; [discriminate|].
    rewrite ET. unfold soup_text. rewrite flat_map_app. cbn [flat_map part_text]. rewrite !joined_app, joined_soup, joined_attrs. unfold start_tag, soup_text. rewrite !app_length.
    cbn [joined flat_map snd]. rewrite !app_length. cbn [length]. change (length (bs "<")) with 1. change (length (bs ">")) with 1. lia. }
  rewrite <- SE in K. apply in_map_iff in K as (k & SK & K). unfold seen in SK. injection SK as S2 S3 S4. exists k. split; [auto|]. split; [auto|].
  assert (0 < length (d_text d)) by (rewrite ET; unfold soup_text; rewrite flat_map_app, app_length; cbn [flat_map part_text]; rewrite app_length; pose proof (start_tag_long name attrs pad (bs ">")); lia).
  split; [lia|congruence].
Qed.
Print Assumptions C83_start_tag.

(** ** A document of this kind *)
Example C83_mixed : good_soup demo_unicode false html5_void mixed /\ denotes demo_unicode false [] 0 mixed 30 [bs "b"] mixed_nodes /\
  soup_text (mixed ++ closers (rev [bs "b"])) = bs "<ul><li>a<li>b</UL></p><b><br></b>".
Proof. split; [exact mixed_good|]. split; [apply C82_mixed|reflexivity]. Qed.
(** The same with more left open: the list, an item, an item in it and a word. *)
Definition open_text : str := bs "<ul><li>a<li>b</p><b>".
Definition answer (t : str) : res (option str) :=
  let d := utf16_doc (t ++ bs "</") in
  do roots <- parse demo_unicode (d_text d) false html5_void;
  do_tag_complete demo_unicode d false [] (bs "html") roots (position_at d (length (d_text d))).
Example C83_answers :
  map answer [open_text; open_text ++ bs "</b>"; open_text ++ bs "</b></li>"; open_text ++ bs "</b></li></li>"; open_text ++ bs "</b></li></li></ul>"] =
  [Ok (Some (bs "b>")); Ok (Some (bs "li>")); Ok (Some (bs "li>")); Ok (Some (bs "ul>")); Ok None].
Proof. vm_compute. reflexivity. Qed.
