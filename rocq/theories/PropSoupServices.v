(** * C84: links and folding ranges of tags in any order *)
From Verif Require Import SelectionRange Base Stream Scanner BaseFacts ScannerFacts ScanStep ScanProps ScanPanic
  Tree Parser ParseSpec ParseInv ParseOrder PropParse TreeFacts PropTree TextDoc PropDoc TokenLoop Folding PropFolding DataManager Uri Links PropUri PropLinks PropLinkAnswers
  Render RenderFacts PropRender Lexing PropTokens PropFoldDoc PropLinkDoc PropSoup PropSoupTyping.
From Verif Require TokenRun.
From Coq Require Import Sorted ZifyBool ZifyNat ZifyN.

(** ** Links: specification *)
(** The names of start tags and the values of attributes, in the order of the text. *)
Definition part_occs (o : nat) (x : part) : list event :=
  match x with
  | Piece h => occs o h
  | Opening name attrs _ => Tag name :: attr_occs name (o + 1 + length name) attrs
  | Closing _ _ => []
  end.
Fixpoint soup_occs (o : nat) (l : list part) : list event :=
  match l with
  | [] => []
  | x :: r => part_occs o x ++ soup_occs (o + length (part_text x)) r
  end.

(** ** Links: proof *)
Section Links.
Variables (U : unicode) (Lb : uri_lib) (resolve : str -> str -> res (option str)) (uri : str).
Variables (d : textdoc) (cs : bool) (void : list str).
Notation lfold := (lfold U Lb resolve uri d cs).
Notation grows := (grows U Lb resolve uri d cs).
Lemma soup_links l : Forall (good_part U cs void) l -> forall o r s s', skipn o (d_text d) = soup_text l ++ r ->
  lfold o (flat_map lex_part l) s = Ok s' -> grows s (soup_occs o l) s'.
Proof.
  induction 1 as [|x l G _ IH]; intros o r s s' E F.
  - apply Ok_inj in F. subst s'. apply grows_nil; auto.
  - cbn [flat_map] in F. unfold soup_text in E. cbn [flat_map] in E. rewrite <- app_assoc in E. rewrite lfold_app, joined_part in F. apply bind_ok in F as (s1 & F1 & F2).
    cbn [soup_occs]. eapply grows_trans; [|eapply IH; [eapply PropLinkDoc.skip_more; exact E|exact F2]].
    destruct x as [h|name attrs pad|name pad]; cbn [lex_part part_text part_occs good_part] in *.
    + eapply PropLinkDoc.item_all; eauto.
    + destruct G as (G1 & _ & _ & G4 & _). destruct (good_name_utf8 _ _ G1) as [_ NE]. eapply start_step; eauto. unfold still; repeat split; discriminate.
    + rewrite lfold_still in F1 by apply still_end. apply Ok_inj in F1. subst s1. apply grows_nil; auto.
Qed.
End Links.
(** The links are those of the attributes of the start tags, whatever the tags close. *)
Theorem C84_links : forall U Lb resolve uri d cs void l ls, textdoc_ok d -> d_text d = soup_text l ->
  good_soup U cs void l ->
  find_document_links U Lb resolve uri d cs = Ok ls ->
  links_of U Lb resolve uri d cs (id_at U cs (soup_occs 0 l)) false None (soup_occs 0 l) ls.
Proof.
  intros U Lb resolve uri d cs void l ls HD E G H. unfold find_document_links in H. apply bind_ok in H as (s & S & H).
  apply (links_tokens U Lb resolve uri d cs HD) in S as (ks & T & F).
  destruct (C83_tokens U cs void false l G) as (ks' & z & T' & _ & SE & _).
  unfold fold_tokens in T. rewrite E, T' in T. cbn [bind] in T. apply Ok_inj in T. subst ks'.
  rewrite fold_tokens_seen, SE in F.
  destruct (soup_links U Lb resolve uri d cs void l (proj1 G) 0 [] lstate0 s) as [(ms & L & M) I].
  { rewrite E, app_nil_r. reflexivity. }
  { exact F. }
  cbn [lstate0 l_links l_ids l_in_base l_base app] in L, M, I. rewrite app_nil_r in I. rewrite L, I in H. eapply made_links; eauto.
Qed.
Print Assumptions C84_links.

(** ** Folding: specification *)
(** What may fold: a closed element of the tree, from its name to its end, and a comment, from its text
    to its end. *)
Record cand := mkCand { c_comment : bool; c_from : nat; c_to : nat }.
Definition span_of (d : textdoc) (c : cand) : list frange :=
  if c_comment c then comment_span d (c_from c) (c_to c) else element_span d (c_from c) (c_to c).
Fixpoint comments (o : nat) (l : list part) : list cand :=
  match l with
  | [] => []
  | x :: r =>
      match x with
      | Piece (HComment (b :: s)) => [mkCand true (o + 4) (o + length (part_text x))]
      | _ => []
      end ++ comments (o + length (part_text x)) r
  end.
Definition candidate (o : nat) (l : list part) (ns : list node) (c : cand) : Prop :=
  In c (comments o l) \/ exists n, In n (doc_nodes ns) /\ n_closed n = true /\ c = mkCand false (n_start n + 1) (n_end n).
Section Spec.
Variables (U : unicode) (cs : bool).
(** Elements are written as their tags, and there are no comments that begin or end a region. *)
Definition flat (x : part) : Prop :=
  match x with
  | Piece (HElement _ _ _ _ _ _) => False
  | Piece (HComment s) => region_start U s = false /\ region_end U s = false
  | _ => True
  end.
(** Names that are the same are written alike. *)
Definition alike (l : list part) : Prop :=
  forall x a p y q, In (Opening x a p) l -> In (Closing y q) l -> Render.same U cs y x -> y = x.
End Spec.

(** ** Folding: proof *)
Lemma comments_app l m : forall o, comments o (l ++ m) = comments o l ++ comments (o + length (soup_text l)) m.
Proof.
  induction l as [|x l IH]; intros o; [cbn; rewrite Nat.add_0_r; reflexivity|]. cbn [app comments]. rewrite IH, <- app_assoc. unfold soup_text. cbn [flat_map]. rewrite app_length, Nat.add_assoc. reflexivity.
Qed.
Section Fold.
Variables (U : unicode) (d : textdoc) (cs : bool) (void : list str).
Let t := d_text d.
Notation folds := (folds U d void).
Notation row := (row d).
Definition names (st : list (nat * str)) : list str := map snd st.
Lemma entry_none y st : ~ In y (names st) -> find_entry (fun x => beq x y) st = None.
Proof.
  induction st as [|[k x] st IH]; intros N; [reflexivity|]. cbn [find_entry names map snd] in *. destruct (beq x y) eqn:B; [apply beq_eq in B; subst x; exfalso; apply N; left; auto|].
  apply IH. intros I. apply N. right. auto.
Qed.
Lemma entry_some y top k base : ~ In y (names top) -> find_entry (fun x => beq x y) (top ++ (k, y) :: base) = Some (k, base).
Proof.
  induction top as [|[k' x] top IH]; intros N; cbn [app find_entry names map snd] in *; [rewrite beq_refl; reflexivity|].
  destruct (beq x y) eqn:B; [apply beq_eq in B; subst x; exfalso; apply N; left; auto|]. apply IH. intros I. apply N. right. auto.
Qed.
(** An end tag for which nothing is open. *)
Lemma folds_stray o name pad r s : skipn o t = end_tag name pad ++ r -> name <> [] -> ~ In name (names (f_stack s)) ->
  let s' := folds o (lex_end name pad) s in f_ranges s' = f_ranges s /\ f_stack s' = f_stack s /\ f_prev s' = f_prev s.
Proof.
  intros H N S. cbn zeta.
  assert (H1 : skipn (o + length (bs "</")) t = name ++ pad ++ bs ">" ++ r).
  { unfold end_tag in H. rewrite <- !app_assoc in H. apply (PropFoldDoc.skip_more d) in H. exact H. }
  assert (EQ : folds o (lex_end name pad) s = folds (o + length (bs "</") + length name + length pad) [(EndTagClose, bs ">")]
    (mkFS (f_ranges s) (f_stack s) (Some name) (f_prev s))).
  { unfold lex_end. rewrite folds_cons.
    rewrite (folds_idle _ _ _ [(EndTagOpen, bs "</")]) by (repeat constructor; unfold idle; repeat split; discriminate).
    rewrite folds_cons, (folds_one _ _ _ _ EndTag) by auto.
    rewrite folds_cons, (folds_idle _ _ _ [(Whitespace, pad)]) by (repeat constructor; unfold idle; repeat split; discriminate).
    unfold tstep. cbn [tk_type].
    assert (TX : tk_text t (mkToken EndTag (o + length (bs "</")) (o + length (bs "</") + length name) None WithinContent) = name)
      by (apply (here d _ _ _ H1)).
    fold t. rewrite TX. reflexivity. }
  rewrite EQ, folds_one by discriminate. unfold tstep, closes_now. cbn [tk_type f_last token_eqb f_stack]. rewrite entry_none by auto. cbn. auto.
Qed.
Lemma same_refl x : Render.same U cs x x.
Proof. unfold Render.same. destruct cs; reflexivity. Qed.

Definition result (o : nat) (l : list part) (e : nat) (left : list str) (ns : list node) (s : fstate) : Prop :=
  let s' := folds o (flat_map lex_part l) s in
  exists k top, StronglySorted (fun a b => c_to a < c_to b) k /\ (forall c, In c k -> o < c_to c <= e) /\
    (forall c, In c k <-> candidate o l ns c) /\ grown s (flat_map (span_of d) k) s' /\
    f_stack s' = top ++ f_stack s /\ names top = rev left.
Lemma sorted_app (A B : list cand) : StronglySorted (fun a b => c_to a < c_to b) A -> StronglySorted (fun a b => c_to a < c_to b) B ->
  (forall a b, In a A -> In b B -> c_to a < c_to b) -> StronglySorted (fun a b => c_to a < c_to b) (A ++ B).
Proof.
  induction A as [|a A IH]; intros SA SB H; [exact SB|]. cbn [app]. apply StronglySorted_inv in SA as [SA FA]. constructor.
  - apply IH; auto. intros x y X Y. apply H; [right; auto|auto].
  - apply Forall_app. split; [auto|]. apply Forall_forall. intros b B'. apply H; [left; auto|auto].
Qed.
(** The candidates of a piece. *)
Definition piece_cands (o : nat) (h : html) : list cand :=
  match h with
  | HText _ | HDoctype _ _ | HComment [] | HElement _ _ _ _ _ _ => []
  | HComment _ => [mkCand true (o + 4) (o + length (render h))]
  | HRaw _ _ _ _ _ | HVoid _ _ _ | HSelf _ _ _ => [mkCand false (o + 1) (o + length (render h))]
  end.
Lemma piece_cands_spec h o l ns c : good U cs void h -> flat U (Piece h) ->
  candidate o (Piece h :: l) (nodes_from o h ++ ns) c <-> In c (piece_cands o h) \/ candidate (o + length (render h)) l ns c.
Proof.
  intros G F. unfold candidate, doc_nodes. cbn [comments part_text]. rewrite in_app_iff, flat_map_app.
  assert (Q : forall P : Prop, (In c match h with HComment (_ :: _) => [mkCand true (o + 4) (o + length (render h))] | _ => [] end \/
    (exists n, In n (flat_map preorder (nodes_from o h)) /\ n_closed n = true /\ c = mkCand false (n_start n + 1) (n_end n)) <-> In c (piece_cands o h))).
  { intros _. destruct h as [x|x|w x|name attrs pad body close pad2|name attrs pad x pad2|name attrs pad|name attrs pad]; cbn [nodes_from flat_map piece_cands]; try destruct F.
    1, 3: split; [intros [[]|(n & [] & _)]|intros []].
    1: destruct x as [|b x]; (split; [intros [I|(n & [] & _)]; exact I|auto]).
    all: rewrite app_nil_r, preorder_eq; cbn [n_children flat_map].
    all: split; [intros [[]|(n & [<-|[]] & _ & ->)]; left; cbn [n_start n_end render]; f_equal; try (rewrite !app_length; lia)|intros [<-|[]]; right; eexists; split; [left; reflexivity|]; split; [reflexivity|]; cbn [n_start n_end render]; f_equal; try (rewrite !app_length; lia)]. }
  specialize (Q True). rewrite <- Q. split.
  - intros [[A|A]|(n & I & C & E)]; [left; left; exact A|right; left; exact A|]. apply in_app_iff in I as [I|I]; [left; right; eauto|right; right; eauto].
  - intros [[A|(n & I & C & E)]|[A|(n & I & C & E)]]; [left; left; exact A|right; exists n; rewrite in_app_iff; auto|left; right; exact A|right; exists n; rewrite in_app_iff; auto].
Qed.
Lemma piece_spans h o : flat U (Piece h) -> flat_map (span_of d) (piece_cands o h) = spans U d o h.
Proof.
  intros F. destruct h as [x|x|w x|name attrs pad body close pad2|name attrs pad x pad2|name attrs pad|name attrs pad]; try destruct F; cbn [piece_cands spans flat_map span_of c_comment c_from c_to]; auto;
    try (unfold span_of; cbn [c_comment c_from c_to]; apply app_nil_r).
  destruct x; [reflexivity|]. cbn [flat_map]. unfold span_of. cbn [c_comment c_from c_to]. apply app_nil_r.
Qed.

Lemma soup_folds around o l e left ns : denotes U cs around o l e left ns -> Forall (good_part U cs void) l -> Forall (flat U) l -> alike U cs l ->
  forall r s, skipn o t = soup_text l ++ r -> names (f_stack s) = around -> result o l e left ns s.
Proof.
  induction 1 as [around o|around o h l e left ns D IH|around o name pad l e left ns N D IH|
    around o name attrs pad body b open kids close pad2 l e left ns a z D1 IH1 NO SN D2 IH2|around o name attrs pad body e open kids a D IH];
    intros G F AL r s E NM; unfold result; cbn zeta.
  - exists [], []. split; [constructor|]. split; [intros c []|]. split; [intros c; split; [intros []|intros [[]|(n & [] & _)]]|]. split; [apply grown_nil; reflexivity|]. auto.
  - apply Forall_cons_iff in G as [Gh Gl]. apply Forall_cons_iff in F as [Fh Fl]. cbn [good_part] in Gh.
    unfold soup_text in E. cbn [flat_map] in E. rewrite <- app_assoc in E. cbn [flat_map lex_part part_text] in *.
    assert (AL' : alike U cs l) by (intros x a p y q X Y; apply (AL x a p y q); right; auto).
    assert (PL : plain U h) by (destruct h; try constructor; destruct Fh).
    assert (OP : opens U h = false) by (destruct h; try reflexivity; destruct Fh as [A _]; exact A).
    assert (EN : ends U h = false) by (destruct h; try reflexivity; destruct Fh as [A B]; cbn [ends]; rewrite B; apply andb_false_r).
    destruct (PropFoldDoc.item_all U d cs void h Gh PL OP EN o _ s E) as (L1 & L2 & L3).
    apply (PropFoldDoc.skip_more d) in E. rewrite folds_app, joined_lex. set (s1 := folds o (lex h) s) in *.
    destruct (IH Gl Fl AL' r s1 E ltac:(rewrite L2; exact NM)) as (k & top & K1 & K2 & K3 & K4 & K5 & K6). pose proof (denotes_end _ _ _ _ _ _ _ _ D) as DE.
    assert (PB : forall c, In c (piece_cands o h) -> o < c_to c <= o + length (render h)).
    { intros c I. assert (0 < length (render h)) by (destruct (render_lt U cs void h Gh) as [[y ->]|(r' & ->)]; [inversion Gh as [? (NE & _)| | | | | | |]; destruct y; [congruence|cbn; lia]|cbn; lia]).
      destruct h as [x|[|b x]|w x|name attrs pad body close pad2|name attrs pad x pad2|name attrs pad|name attrs pad]; cbn [piece_cands In] in I; try destruct I as [<-|[]]; try destruct I; cbn [c_to]; lia. }
    assert (PS : StronglySorted (fun a b => c_to a < c_to b) (piece_cands o h)) by (destruct h as [x|[|b x]|w x|name attrs pad body close pad2|name attrs pad x pad2|name attrs pad|name attrs pad]; cbn [piece_cands]; repeat constructor).
    exists (piece_cands o h ++ k), top. split; [apply sorted_app; auto; intros c c' C C'; apply PB in C; apply K2 in C'; lia|].
    split; [intros c C; apply in_app_iff in C as [C|C]; [apply PB in C|apply K2 in C]; lia|].
    split; [intros c; rewrite in_app_iff, piece_cands_spec, K3 by auto; tauto|].
    split; [rewrite flat_map_app, piece_spans by auto; eapply grown_trans; [split; [exact L1|exact L3]|exact K4]|]. split; [rewrite K5, L2; reflexivity|auto].
  - apply Forall_cons_iff in G as [[GN GB] Gl]. apply Forall_cons_iff in F as [_ Fl]. destruct (good_name_utf8 _ _ GN) as [_ NE].
    unfold soup_text in E. cbn [flat_map] in E. rewrite <- app_assoc in E. cbn [flat_map lex_part part_text] in *.
    assert (AL' : alike U cs l) by (intros x a p y q X Y; apply (AL x a p y q); right; auto).
    destruct (folds_stray o name pad _ s E NE) as (L1 & L2 & L3); [rewrite NM; intros I; apply (N name I), same_refl|].
    apply (PropFoldDoc.skip_more d) in E. rewrite folds_app, joined_end. set (s1 := folds o (lex_end name pad) s) in *.
    destruct (IH Gl Fl AL' r s1 E ltac:(rewrite L2; exact NM)) as (k & top & K1 & K2 & K3 & K4 & K5 & K6). pose proof (denotes_end _ _ _ _ _ _ _ _ D) as DE.
    exists k, top. split; [auto|]. split; [intros c C; apply K2 in C; lia|]. split; [exact K3|]. split; [change (flat_map (span_of d) k) with ([] ++ flat_map (span_of d) k); eapply grown_trans; [apply grown_nil; eauto|exact K4]|].
    split; [rewrite K5, L2; reflexivity|auto].
  - apply Forall_cons_iff in G as [(GN & NR & NV & GA & BP) G]. apply Forall_app in G as [Gb G]. apply Forall_cons_iff in G as [(GC & BC) Gl].
    apply Forall_cons_iff in F as [_ F]. apply Forall_app in F as [Fb F]. apply Forall_cons_iff in F as [_ Fl].
    destruct (good_name_utf8 _ _ GN) as [_ NE].
    assert (CN : close = name) by (apply (AL name attrs pad close pad2); [left; auto|right; apply in_app_iff; right; left; auto|auto]). subst close.
    assert (ALb : alike U cs body) by (intros x a' p y q X Y; apply (AL x a' p y q); right; apply in_app_iff; left; auto).
    assert (ALl : alike U cs l) by (intros x a' p y q X Y; apply (AL x a' p y q); right; apply in_app_iff; right; right; auto).
    unfold soup_text in E. cbn [flat_map] in E. rewrite flat_map_app in E. cbn [flat_map part_text] in E. rewrite <- !app_assoc in E.
    cbn [flat_map lex_part]. rewrite flat_map_app. cbn [flat_map lex_part]. rewrite folds_app, joined_start, (folds_open _ _ _ _ _ _ _ _ _ E NE NV).
    apply (PropFoldDoc.skip_more d) in E. fold a in E |- *. set (s1 := mkFS _ _ _ _).
    destruct (IH1 Gb Fb ALb _ s1 E ltac:(cbn [s1 f_stack names map snd]; f_equal; exact NM)) as (k1 & top1 & K1 & K2 & K3 & K4 & K5 & K6).
    pose proof (denotes_end _ _ _ _ _ _ _ _ D1) as DE1. pose proof (denotes_end _ _ _ _ _ _ _ _ D2) as DE2. pose proof (end_tag_long name pad2) as LE.
    apply (PropFoldDoc.skip_more d) in E. change (flat_map part_text body) with (soup_text body) in E. rewrite <- DE1 in E.
    rewrite folds_app, joined_soup, <- DE1. set (s2 := folds a (flat_map lex_part body) s1) in *.
    destruct (folds_end U d void b (o + 1) name pad2 _ s2 s E NE) as (L1 & L2 & L3).
    { rewrite K5. apply entry_some. rewrite K6. intros I. apply in_rev in I. apply (NO name I), same_refl. }
    apply (PropFoldDoc.skip_more d) in E. fold z in E, L1, L3. rewrite folds_app, joined_end. fold z. set (s3 := folds b (lex_end name pad2) s2) in *.
    destruct (IH2 Gl Fl ALl _ s3 E ltac:(rewrite L2; exact NM)) as (k2 & top2 & J1 & J2 & J3 & J4 & J5 & J6).
    set (n := mkNode (Some name) o z kids true (Some a) (Some b) (attrs_from (o + 1 + length name) attrs)).
    exists (k1 ++ mkCand false (o + 1) z :: k2), top2. split.
    { apply sorted_app; [auto|constructor; [auto|apply Forall_forall; intros c C; apply J2 in C; cbn [c_to]; lia]|].
      intros c c' C [<-|C']; apply K2 in C; [cbn [c_to]; lia|apply J2 in C'; lia]. }
    split; [intros c C; apply in_app_iff in C as [C|[<-|C]]; [apply K2 in C|cbn [c_to]|apply J2 in C]; unfold a in *; lia|].
    split.
    { intros c. rewrite in_app_iff. cbn [In]. rewrite K3, J3. unfold candidate, doc_nodes. cbn [comments part_text app]. rewrite comments_app. cbn [comments part_text app]. fold a. rewrite <- DE1. fold z.
      rewrite in_app_iff. cbn [flat_map]. fold n. split.
      - intros [[A|(m & I & Q)]|[<-|[A|(m & I & Q)]]]; [left; auto|right; exists m; split; [apply in_app_iff; left; apply preorder_in; right; exact I|auto]| |left; auto|right; exists m; split; [apply in_app_iff; right; exact I|auto]].
        right. exists n. split; [apply in_app_iff; left; apply preorder_in; auto|]. auto.
      - intros [[A|A]|(m & I & C & Q)]; [left; left; auto|right; right; left; auto|]. apply in_app_iff in I as [I|I]; [|right; right; right; eauto].
        apply preorder_in in I as [->|I]; [right; left; auto|left; right; exists m; auto]. }
    split.
    { rewrite flat_map_app. cbn [flat_map]. eapply grown_trans; [|eapply grown_trans; [|exact J4]].
      - destruct K4 as [A1 A2]. split; [rewrite A1; reflexivity|rewrite A2; reflexivity].
      - split; [exact L1|exact L3]. }
    split; [rewrite J5, L2; reflexivity|auto].
  - apply Forall_cons_iff in G as [(GN & NR & NV & GA & BP) Gb]. apply Forall_cons_iff in F as [_ Fb]. destruct (good_name_utf8 _ _ GN) as [_ NE].
    assert (ALb : alike U cs body) by (intros x a' p y q X Y; apply (AL x a' p y q); right; auto).
    unfold soup_text in E. cbn [flat_map] in E. rewrite <- !app_assoc in E. cbn [flat_map lex_part part_text] in *.
    rewrite folds_app, joined_start, (folds_open _ _ _ _ _ _ _ _ _ E NE NV).
    apply (PropFoldDoc.skip_more d) in E. fold a in E |- *. set (s1 := mkFS _ _ _ _).
    destruct (IH Gb Fb ALb _ s1 E ltac:(cbn [s1 f_stack names map snd]; f_equal; exact NM)) as (k1 & top1 & K1 & K2 & K3 & K4 & K5 & K6).
    pose proof (denotes_end _ _ _ _ _ _ _ _ D) as DE1.
    exists k1, (top1 ++ [(row (o + 1), name)]). split; [auto|]. split; [intros c C; apply K2 in C; unfold a in *; lia|]. split.
    { intros c. rewrite K3. unfold candidate, doc_nodes. cbn [comments part_text app flat_map]. fold a. rewrite app_nil_r. split.
      - intros [A|(m & I & Q)]; [auto|]. right. exists m. split; [apply preorder_in; right; exact I|auto].
      - intros [A|(m & I & C & Q)]; [auto|]. right. apply preorder_in in I as [->|I]; [discriminate|]. exists m. auto. }
    split; [destruct K4 as [A1 A2]; split; [rewrite A1; reflexivity|rewrite A2; reflexivity]|].
    split; [rewrite K5, <- app_assoc; reflexivity|]. unfold names in *. rewrite map_app, K6. reflexivity.
Qed.
End Fold.

(** ** Folding: the theorem *)
(** The ranges are those of the closed elements of the tree and of the comments, in the order in
    which they end; elements left open do not fold. As in C74 a range is passed over when the one
    reported last begins on the same line. *)
Theorem C84_folding : forall U d cs void l e left ns, textdoc_ok d -> d_text d = soup_text l ->
  good_soup U cs void l -> Forall (flat U) l -> alike U cs l -> denotes U cs [] 0 l e left ns ->
  exists k, StronglySorted (fun a b => c_to a < c_to b) k /\ (forall c, In c k <-> candidate 0 l ns c) /\
    get_folding_ranges U d None void cs = Ok (reported None (flat_map (span_of d) k)).
Proof.
  intros U d cs void l e left ns HD E G F AL D.
  destruct (soup_folds U d cs void _ _ _ _ _ _ D (proj1 G) F AL [] fstate0) as (k & top & K1 & _ & K3 & (K4 & _) & _); [rewrite E, app_nil_r; reflexivity|reflexivity|].
  exists k. split; [auto|]. split; [auto|]. rewrite unlimited, (all_ranges_tokens U d cs void HD).
  destruct (C83_tokens U cs void false l G) as (ks & z & T & _ & S & _).
  unfold fold_tokens. rewrite E, T. cbn [bind]. rewrite folds_tokens, S.
  fold (folds U d void 0 (flat_map lex_part l) fstate0). rewrite K4. reflexivity.
Qed.
Print Assumptions C84_folding.

(** ** A concrete case *)
(** The list folds, its item and the last element, which are not closed, do not. *)
Definition lines : list part :=
  [Opening (bs "ul") [] []; Piece (HText nl); Opening (bs "li") [] []; Piece (HText nl); Piece (HComment (bs "x" ++ nl ++ nl));
   Piece (HText nl); Closing (bs "ul") []; Piece (HText nl); Closing (bs "p") []; Opening (bs "b") [] []; Piece (HText (nl ++ nl ++ nl))].
Lemma lines_good : good_soup demo_unicode false html5_void lines.
Proof.
  assert (NV : forall n, is_void_element n html5_void = false -> ~ In n html5_void).
  { intros n H I. unfold is_void_element in H. rewrite <- not_true_iff_false in H. apply H. apply existsb_exists.
    exists n. split; auto. apply beq_refl. }
  assert (O : forall n, good_name demo_unicode n -> is_void_element n html5_void = false -> ~ is_raw demo_unicode false n -> good_part demo_unicode false html5_void (Opening n [] [])).
  { intros n A B C. split; auto. split; auto. split; auto. split; [|intros ? []]. split; [apply Forall_nil|apply NoDup_nil]. }
  assert (C : forall n, good_name demo_unicode n -> good_part demo_unicode false html5_void (Closing n [])) by (intros n A; split; auto; intros ? []).
  assert (R : forall n, beq (lower demo_unicode n) (bs "script") = false -> beq (lower demo_unicode n) (bs "style") = false -> ~ is_raw demo_unicode false n).
  { intros n A B [E|E]; unfold Render.same in E; [rewrite E in A|rewrite E in B]; discriminate. }
  assert (NO : forall m s, find_str m s = None -> ~ occurs m s).
  { intros m s H (a & b & ->). rewrite find_str_none in H. specialize (H (length a) ltac:(rewrite app_length; lia)).
    rewrite skipn_app, skipn_all, Nat.sub_diag in H. cbn [skipn app] in H.
    rewrite (proj2 (is_prefix_spec m (m ++ b))) in H by eauto. discriminate. }
  assert (T : forall x, x <> [] -> forallb (fun b => (b <? 128)%N) x = true -> ~ In 60%N x -> good_part demo_unicode false html5_void (Piece (HText x))).
  { intros x A B D. apply G_text. split; auto. split; [apply ascii_utf8; exact B|exact D]. }
  split; [|cbn; repeat split; auto].
  repeat apply Forall_cons; try apply Forall_nil; try (apply O; [name|reflexivity|apply R; reflexivity]); try (apply C; name);
    try (apply T; [discriminate|reflexivity|cbn; intuition discriminate]).
  apply G_comment; [apply ascii_utf8; reflexivity|apply NO; reflexivity].
Qed.
Example C84_lines : textdoc_ok (utf16_doc (soup_text lines)) /\ Forall (flat demo_unicode) lines /\ alike demo_unicode false lines /\
  (exists e left ns, denotes demo_unicode false [] 0 lines e left ns) /\
  get_folding_ranges demo_unicode (utf16_doc (soup_text lines)) None html5_void false = Ok [mkF 2 4 (Some KComment); mkF 0 4 None].
Proof.
  split; [apply C27_contract, ascii_utf8; reflexivity|]. split; [repeat constructor|]. split.
  { intros x a p y q X Y E. cbn in X, Y.
    repeat match goal with H : _ \/ _ |- _ => destruct H as [H|H] | H : False |- _ => destruct H end; try discriminate; inversion X; inversion Y; subst; auto; discriminate E. }
  split; [|vm_compute; reflexivity].
  exists (length (soup_text lines)). apply C82_every.
Qed.
