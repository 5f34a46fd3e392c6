(** * C82: the tree of any sequence of tags *)
From Verif Require Import Base BaseFacts Stream Scanner ScannerFacts ScanStep ScanProps ScanPanic
  ScanShape ScanComplete Tree Parser ParseSpec PropParse Render RenderFacts PropRender.
From Coq Require Import ZifyBool ZifyNat ZifyN.

(** ** Specification *)
(** A document as a sequence of tags and other pieces, in any order: start tags without end tags,
    end tags without start tags and overlapping elements included. *)
Inductive part :=
(** text, a comment, a doctype, a script, a style sheet, a void element, an element closed by '/>',
    or a whole well-formed element *)
| Piece (h : html)
| Opening (name : str) (attrs : list hattr) (pad : str)
| Closing (name pad : str).
Definition part_text (x : part) : str :=
  match x with
  | Piece h => render h
  | Opening name attrs pad => start_tag name attrs pad (bs ">")
  | Closing name pad => end_tag name pad
  end.
Definition soup_text (l : list part) : str := flat_map part_text l.

Section Spec.
Variables (U : unicode) (cs : bool) (void : list str).
Notation same := (same U cs).

(** Every part is well-formed by itself, and text is not split into adjacent pieces. Nothing is
    said about how the tags follow each other. *)
Definition good_part (x : part) : Prop :=
  match x with
  | Piece h => good U cs void h
  | Opening name attrs pad => good_name U name /\ ~ is_raw U cs name /\ ~ In name void /\ good_attrs attrs /\ blank pad
  | Closing name pad => good_name U name /\ blank pad
  end.
Definition part_is_text (x : part) : bool := match x with Piece (HText _) => true | _ => false end.
Fixpoint unsplit (l : list part) : Prop :=
  match l with
  | x :: r => (match r with y :: _ => part_is_text x = true -> part_is_text y = false | [] => True end) /\ unsplit r
  | [] => True
  end.
Definition good_soup (l : list part) : Prop := Forall good_part l /\ unsplit l.

(** [denotes around o l e left ns]: inside open elements with the names [around], the parts [l] at
    offset [o] end at [e] and stand for the nodes [ns]; [left] are the names of the elements that
    are left open at the end of [l], outermost first.
    An element is closed by the first end tag behind it that has its name, was not taken by an element
    inside and does not come after the end of an element around it. What is left open inside of an element ends
    where the end tag of that element begins. End tags for which nothing is open stand for nothing. *)
Inductive denotes : list str -> nat -> list part -> nat -> list str -> list node -> Prop :=
| D_end around o : denotes around o [] o [] []
| D_piece around o h l e left ns :
    denotes around (o + length (render h)) l e left ns ->
    denotes around o (Piece h :: l) e left (nodes_from o h ++ ns)
| D_stray around o name pad l e left ns :
    (forall y, In y around -> ~ same name y) ->
    denotes around (o + length (end_tag name pad)) l e left ns ->
    denotes around o (Closing name pad :: l) e left ns
| D_closed around o name attrs pad body b open kids close pad2 l e left ns :
    let a := o + length (start_tag name attrs pad (bs ">")) in
    let z := b + length (end_tag close pad2) in
    denotes (name :: around) a body b open kids ->
    (forall y, In y open -> ~ same close y) -> same close name ->
    denotes around z l e left ns ->
    denotes around o (Opening name attrs pad :: body ++ Closing close pad2 :: l) e left
      (mkNode (Some name) o z kids true (Some a) (Some b) (attrs_from (o + 1 + length name) attrs) :: ns)
| D_open around o name attrs pad body e open kids :
    let a := o + length (start_tag name attrs pad (bs ">")) in
    denotes (name :: around) a body e open kids ->
    denotes around o (Opening name attrs pad :: body) e (name :: open)
      [mkNode (Some name) o e kids false (Some a) None (attrs_from (o + 1 + length name) attrs)].
End Spec.

(** ** Every sequence stands for a tree *)
Section Total.
Variables (U : unicode) (cs : bool).
Lemma same_dec a b : {Render.same U cs a b} + {~ Render.same U cs a b}.
Proof. unfold Render.same. destruct cs; apply (list_eq_dec N.eq_dec). Qed.
Lemma any_dec name around : (exists y, In y around /\ Render.same U cs name y) \/ (forall y, In y around -> ~ Render.same U cs name y).
Proof.
  induction around as [|x r IH]; [right; intros y []|]. destruct (same_dec name x) as [S|S]; [left; exists x; split; [left; auto|auto]|].
  destruct IH as [(y & Y & Q)|IH]; [left; exists y; split; [right; auto|auto]|]. right. intros y [->|Y]; auto.
Qed.
Lemma reads n : forall l around o, length l <= n ->
  (exists e left ns, denotes U cs around o l e left ns) \/
  (exists l1 close pad l2 e left ns, l = l1 ++ Closing close pad :: l2 /\ denotes U cs around o l1 e left ns /\
     (forall y, In y left -> ~ Render.same U cs close y) /\ exists y, In y around /\ Render.same U cs close y).
Proof.
  induction n as [|n IH]; intros l around o L.
  - destruct l; [|cbn [length] in L; lia]. left. eexists _, _, _. apply D_end.
  - destruct l as [|x l]; [left; eexists _, _, _; apply D_end|]. cbn [length] in L. destruct x as [h|name attrs pad|name pad].
    + destruct (IH l around (o + length (render h)) ltac:(lia)) as [(e & left & ns & D)|(l1 & close & pad & l2 & e & left & ns & -> & D & N & Y)].
      * left. eexists _, _, _. apply D_piece. exact D.
      * right. exists (Piece h :: l1), close, pad, l2. eexists _, _, _. split; [reflexivity|]. split; [apply D_piece; exact D|]. auto.
    + destruct (IH l (name :: around) (o + length (start_tag name attrs pad (bs ">"))) ltac:(lia)) as [(e & left & ns & D)|(l1 & close & pad2 & l2 & e & left & ns & -> & D & N & (y & Y & Q))].
      * left. eexists _, _, _. apply D_open. exact D.
      * destruct (same_dec close name) as [SN|SN].
        -- rewrite app_length in L. cbn [length] in L. destruct (IH l2 around (e + length (end_tag close pad2)) ltac:(lia)) as [(e' & left' & ns' & D')|(l3 & close' & pad3 & l4 & e' & left' & ns' & -> & D' & N' & Y')].
           ++ left. eexists _, _, _. eapply D_closed; eauto.
           ++ right. exists (Opening name attrs pad :: l1 ++ Closing close pad2 :: l3), close', pad3, l4. eexists _, _, _. split; [cbn [app]; rewrite <- app_assoc; reflexivity|].
              split; [eapply D_closed; eauto|]. auto.
        -- right. exists (Opening name attrs pad :: l1), close, pad2, l2. eexists _, _, _. split; [reflexivity|]. split; [apply D_open; exact D|]. split.
           ++ intros z [<-|Z]; auto.
           ++ exists y. split; [|auto]. destruct Y as [<-|Y]; [contradiction|auto].
    + destruct (any_dec name around) as [Y|N].
      * right. exists [], name, pad, l. eexists _, _, _. split; [reflexivity|]. split; [apply D_end|]. split; [intros y []|auto].
      * destruct (IH l around (o + length (end_tag name pad)) ltac:(lia)) as [(e & left & ns & D)|(l1 & close & pad2 & l2 & e & left & ns & -> & D & N' & Y)].
        -- left. eexists _, _, _. apply D_stray; eauto.
        -- right. exists (Closing name pad :: l1), close, pad2, l2. eexists _, _, _. split; [reflexivity|]. split; [apply D_stray; eauto|]. auto.
Qed.
End Total.
Theorem C82_every : forall U cs l, exists left ns, denotes U cs [] 0 l (length (soup_text l)) left ns.
Proof.
  intros U cs l. destruct (reads U cs (length l) l [] 0 (Nat.le_refl _)) as [(e & left & ns & D)|(l1 & close & pad & l2 & e & left & ns & _ & _ & _ & (y & [] & _))].
  exists left, ns. replace (length (soup_text l)) with e; [exact D|]. clear - D.
  assert (Q : forall around o l e left ns, denotes U cs around o l e left ns -> e = o + length (soup_text l)).
  { clear. induction 1; unfold soup_text in *; cbn [flat_map part_text length]; rewrite ?app_length, ?flat_map_app; try lia.
    subst z a. cbn [flat_map part_text]. rewrite !app_length in *. lia. }
  apply Q in D. lia.
Qed.

(** ** The parser *)
(** The [k] innermost nodes, left open, end at [e]. *)
Fixpoint collapse (e k : nat) (c : node) (ps : list node) : option (node * list node) :=
  match k with
  | 0 => Some (c, ps)
  | S k' => match ps with
            | par :: ps' => collapse e k' (add_child par (set_closed false (set_end e c))) ps'
            | [] => None
            end
  end.
Lemma collapse_last e k : forall c ps c' par ps', collapse e k c ps = Some (c', par :: ps') ->
  collapse e (S k) c ps = Some (add_child par (set_closed false (set_end e c')), ps').
Proof.
  induction k as [|k IH]; intros c ps c' par ps' H.
  - cbn [collapse] in *. apply Some_inj, pair_equal_spec in H as [-> ->]. reflexivity.
  - destruct ps as [|par0 ps0]; [discriminate|]. cbn [collapse] in H. apply IH in H. exact H.
Qed.
Lemma collapse_inner e k : forall p c' ps', end_tag_start p = Some e -> collapse e k (cur p) (parents p) = Some (c', ps') ->
  close_inner k p = Ok (mkP c' ps' (end_tag_start p) (end_tag_name p) (pending p)).
Proof.
  induction k as [|k IH]; intros p c' ps' E H; cbn [collapse close_inner] in *.
  - apply Some_inj, pair_equal_spec in H as [<- <-]. destruct p; reflexivity.
  - rewrite E. cbn [unwrap bind]. destruct (parents p) as [|par ps] eqn:P; [discriminate|]. unfold pop, upd_cur. cbn [parents cur]. rewrite P. cbn [bind].
    rewrite (IH _ c' ps'); [cbn [end_tag_start end_tag_name pending]; rewrite E; reflexivity|cbn [end_tag_start]; auto|exact H].
Qed.
Lemma collapse_all t k : forall c ps c', collapse (length t) k c ps = Some (c', []) -> close_all t c ps = c'.
Proof.
  induction k as [|k IH]; intros c ps c' H; cbn [collapse] in H.
  - apply Some_inj, pair_equal_spec in H as [-> ->]. reflexivity.
  - destruct ps as [|par ps]; [discriminate|]. cbn [close_all]. apply IH. exact H.
Qed.

Section Runs.
Variables (U : unicode) (t : str) (cs : bool) (void : list str).
Hypothesis HU : Utf8 t.
Notation run := (run U t cs void).
Notation at_ := (at_ t).
Notation same := (Render.same U cs).

(** The names of the open elements, innermost first; the last node is the document. *)
Fixpoint names_of (c : node) (ps : list node) (names : list str) : Prop :=
  match ps, names with
  | [], [] => True
  | par :: ps', x :: names' => n_tag c = Some x /\ names_of par ps' names'
  | _, _ => False
  end.
Lemma names_tag c c' ps names : n_tag c' = n_tag c -> names_of c ps names -> names_of c' ps names.
Proof. destruct ps, names; cbn [names_of]; auto. intros ->. auto. Qed.
Lemma same_tag c close x : n_tag c = Some x -> is_same_tag U cs c (Some (ScannerFacts.norm U cs close)) = true <-> same close x.
Proof.
  intros T. unfold is_same_tag, Render.same, ScannerFacts.norm. rewrite T. destruct cs; rewrite beq_eq; split; congruence.
Qed.
Lemma find_none close : forall ps c names, names_of c ps names -> (forall y, In y names -> ~ same close y) ->
  find_open U cs c ps (Some (ScannerFacts.norm U cs close)) = None.
Proof.
  induction ps as [|par ps IH]; intros c names N H; [reflexivity|]. destruct names as [|x names]; [destruct N|]. destruct N as [T N]. cbn [find_open].
  destruct (is_same_tag U cs c (Some (ScannerFacts.norm U cs close))) eqn:E; [exfalso; apply (H x); [left; auto|]; apply (same_tag c close x T); auto|].
  rewrite (IH par names N); [reflexivity|]. intros y Y. apply H. right. auto.
Qed.
Lemma find_some close name : forall inner ps c around, names_of c ps (inner ++ name :: around) -> (forall y, In y inner -> ~ same close y) -> same close name ->
  find_open U cs c ps (Some (ScannerFacts.norm U cs close)) = Some (length inner).
Proof.
  induction inner as [|x inner IH]; intros ps c around N H SN; cbn [app] in N; destruct ps as [|par ps]; try destruct N as [T N]; try destruct N; cbn [find_open length].
  - rewrite (proj2 (same_tag c close name T) SN). reflexivity.
  - destruct (is_same_tag U cs c (Some (ScannerFacts.norm U cs close))) eqn:E; [exfalso; apply (H x); [left; auto|]; apply (same_tag c close x T); auto|].
    rewrite (IH ps par around N); auto. intros y Y. apply H. right. auto.
Qed.

(** An end tag, whatever it closes. *)
Lemma end_step sc p close pad s p4 : st sc = WithinContent -> at_ (pos sc) (end_tag close pad ++ s) -> good_name U close -> blank pad ->
  let p2 := mkP (cur p) (parents p) (Some (pos sc)) (Some (ScannerFacts.norm U cs close)) (pending p) in
  let z := pos sc + length (end_tag close pad) in
  (match find_open U cs (cur p) (parents p) (Some (ScannerFacts.norm U cs close)) with
   | None => Ok p2
   | Some k => do p' <- close_inner k p2; pop (upd_cur (fun n => set_end z (set_ets (end_tag_start p') (set_closed true n))) p')
   end) = Ok p4 ->
  exists sc1, run sc p sc1 p4 /\ st sc1 = WithinContent /\ pos sc1 = z.
Proof.
  intros ST A GN BP p2 z ST4. assert (CL : content_like t sc) by (left; auto). destruct (name_first_byte _ _ GN) as (c & r & En & Wc & N1 & N2 & N3 & N4 & N5).
  destruct (good_name_utf8 _ _ GN) as [Un NE]. unfold end_tag in A. rewrite <- !app_assoc in A.
  pose proof (at_len _ _ _ A) as L. rewrite !app_length in L. cbn [length bs] in L.
  assert (A1 := A). apply at_adv in A1; [|auto|apply ascii_utf8; reflexivity]. change (length (bs "</")) with 2 in A1.
  set (s1 := finish sc (pos sc) EndTagOpen None (pos sc + 2) AfterOpeningEndTag).
  set (p1 := mkP (cur p) (parents p) (Some (pos sc)) None (pending p)).
  assert (R1 : run sc p s1 p1).
  { apply one; [auto|..]; cbn [tok finish pos s1]; try discriminate; try lia.
    - apply O_end_tag_open; auto.
      + eapply at_first. exact A.
      + rewrite (at_nth _ _ _ _ A). reflexivity.
    - apply A.
    - reflexivity. }
  assert (EXd : exists d rest', pad ++ bs ">" ++ s = d :: rest' /\ stops d).
  { destruct pad as [|d pad].
    - exists 62%N, s. split; auto. unfold stops; auto.
    - exists d. eexists. split; [reflexivity|]. left. rewrite blank_ws in BP. apply BP. cbn; auto. }
  destruct EXd as (d & rest' & Ed & Sd). rewrite Ed in A1.
  pose proof (at_elem _ _ _ _ _ _ A1 GN Sd) as EN. pose proof (at_slice _ HU _ _ _ A1 Un) as SL.
  assert (LN : 0 < length close) by (rewrite En; cbn; lia).
  set (s2 := finish s1 (pos s1) EndTag None (pos s1 + length close) WithinEndTag).
  assert (R2 : run s1 p1 s2 p2).
  { apply one; [auto|..]; cbn [tok finish pos s2]; try discriminate; try lia.
    - apply O_end_tag; auto.
    - apply A1.
    - unfold pstep. cbn [tok finish s2]. unfold token_text. cbn [tok_off pos finish s2 s1]. rewrite SL. reflexivity. }
  apply at_adv in A1; auto. rewrite <- Ed in A1. change (pos sc + 2 + length close) with (pos s2) in A1.
  assert (EX3 : exists s3, run s2 p2 s3 p2 /\ pos s3 = pos s2 + length pad /\ st s3 = WithinEndTag).
  { destruct pad as [|g pad].
    - exists s2. split; [apply run_nil|]. cbn. auto.
    - pose proof (at_ws _ _ _ _ A1 BP ltac:(discriminate)) as K.
      specialize (K ltac:(intros x y E; inversion E; reflexivity)).
      exists (finish s2 (pos s2) Whitespace None (pos s2 + length (g :: pad)) WithinEndTag).
      split; [|cbn; auto]. apply one; [auto|..]; cbn [tok finish pos length]; try discriminate; try lia.
      + apply O_end_tag_ws2; auto.
      + apply A1.
      + reflexivity. }
  destruct EX3 as (s3 & R3 & P3 & S3). apply at_adv in A1; [|auto|apply blank_utf8; auto]. rewrite <- P3 in A1.
  set (s4 := finish s3 (pos s3) EndTagClose None (pos s3 + 1) WithinContent).
  assert (EZ : z = pos s4).
  { unfold z, end_tag. cbn [pos s4 finish]. rewrite P3, !app_length. cbn [pos s2 s1 finish length bs]. lia. }
  assert (R4 : run s3 p2 s4 p4).
  { apply one; [auto|..]; cbn [tok finish pos s4]; try discriminate; try lia.
    - apply O_end_tag_close; auto. eapply at_first. exact A1.
    - apply A1.
    - unfold pstep. cbn [tok finish s4 cur parents end_tag_name p2]. rewrite EZ in ST4. exact ST4. }
  exists s4. split; [eapply run_trans; eauto; eapply run_trans; eauto; eapply run_trans; eauto|]. split; [reflexivity|auto].
Qed.

Lemma part_utf8 x : good_part U cs void x -> Utf8 (part_text x).
Proof.
  destruct x as [h|name attrs pad|name pad]; cbn [good_part part_text].
  - apply render_utf8.
  - intros (A & _ & _ & B & C). apply start_utf8 with (U := U); auto. apply u_one; reflexivity.
  - intros (A & B). apply end_utf8 with (U := U); auto.
Qed.
Lemma soup_utf8 l : Forall (good_part U cs void) l -> Utf8 (soup_text l).
Proof. induction 1; [apply u_nil|]. unfold soup_text. cbn [flat_map]. apply u_app; auto. apply part_utf8; auto. Qed.
Lemma part_lt x : good_part U cs void x -> part_is_text x = false -> exists r, part_text x = 60%N :: r.
Proof.
  destruct x as [h|name attrs pad|name pad]; cbn [good_part part_text part_is_text]; intros G E; [|eexists; reflexivity|eexists; reflexivity].
  destruct (render_lt _ _ _ _ G) as [[y ->]|R]; [discriminate|auto].
Qed.
Lemma unsplit_app a b : unsplit (a ++ b) -> unsplit a /\ unsplit b.
Proof.
  induction a as [|x a IH]; cbn [app unsplit]; auto. intros [H1 H2]. destruct (IH H2) as [I1 I2]. split; [split; auto|auto].
  destruct a as [|y a]; auto.
Qed.

Lemma soup_run around o l e left ns : denotes U cs around o l e left ns -> Forall (good_part U cs void) l -> unsplit l ->
  forall sc p s, st sc = WithinContent -> pos sc = o -> at_ o (soup_text l ++ s) -> (s = [] \/ exists s', s = 60%N :: s') ->
  names_of (cur p) (parents p) around ->
  exists sc1 p1, run sc p sc1 p1 /\ st sc1 = WithinContent /\ pos sc1 = e /\ e = o + length (soup_text l) /\
    collapse e (length left) (cur p1) (parents p1) = Some (plus (cur p) ns, parents p) /\
    names_of (cur p1) (parents p1) (rev left ++ around).
Proof.
  induction 1 as [around o|around o h l e left ns D IH|around o name pad l e left ns N D IH|
    around o name attrs pad body b open kids close pad2 l e left ns a z D1 IH1 NO SN D2 IH2|around o name attrs pad body e open kids a D IH];
    intros G NS sc p s S P A E NM.
  - exists sc, p. split; [apply run_nil|]. split; [auto|]. split; [auto|]. split; [cbn; lia|]. cbn [length collapse rev app]. rewrite plus_nil. auto.
  - apply Forall_cons_iff in G as [Gh Gl]. cbn [unsplit] in NS. destruct NS as [NS1 NS2]. unfold soup_text in A. cbn [flat_map part_text] in A. rewrite <- app_assoc in A. rewrite <- P in A.
    destruct (item_ok U t cs void HU h Gh sc p _ Gh S A) as (s1 & p1 & R1 & S1 & P1 & C1 & Q1 & _).
    { intros [x ->]. destruct l as [|y l]; [exact E|]. right. apply Forall_cons_iff in Gl as [Gy _]. destruct (part_lt y Gy (NS1 eq_refl)) as (r & R).
      cbn [flat_map]. rewrite R. eexists. reflexivity. }
    apply at_adv in A; [|auto|eapply render_utf8; eauto]. 
    destruct (IH Gl NS2 s1 p1 s S1 ltac:(lia)) as (s2 & p2 & R2 & S2 & P2 & E2 & C2 & N2); [rewrite <- P; exact A|exact E| |].
    { rewrite Q1. eapply names_tag; [|exact NM]. rewrite C1. reflexivity. }
    exists s2, p2. split; [eapply run_trans; eauto|]. split; [auto|]. split; [auto|]. split; [unfold soup_text in *; cbn [flat_map part_text]; rewrite app_length; lia|].
    split; [rewrite C2, C1, plus_plus, Q1, P; reflexivity|exact N2].
  - apply Forall_cons_iff in G as [[GN BP] Gl]. cbn [unsplit] in NS. destruct NS as [_ NS2]. unfold soup_text in A. cbn [flat_map part_text] in A. rewrite <- app_assoc in A. rewrite <- P in A.
    edestruct (end_step sc p name pad) as (s1 & R1 & S1 & P1); [exact S|exact A|exact GN|exact BP| |].
    { rewrite (find_none name _ _ _ NM N). reflexivity. }
    apply at_adv in A; [|auto|apply end_utf8 with (U := U); auto].
    match type of R1 with RenderFacts.run _ _ _ _ _ _ _ ?q => destruct (IH Gl NS2 s1 q s S1 ltac:(lia)) as (s2 & p2 & R2 & S2 & P2 & E2 & C2 & N2) end; [rewrite <- P; exact A|exact E|exact NM|].
    exists s2, p2. split; [eapply run_trans; eauto|]. split; [auto|]. split; [auto|]. split; [unfold soup_text in *; cbn [flat_map part_text]; rewrite app_length; lia|]. auto.
  - apply Forall_cons_iff in G as [(GN & NR & NV & GA & BP) Gl]. apply Forall_app in Gl as [Gb Gl]. apply Forall_cons_iff in Gl as [[GC BP2] Gl].
    cbn [unsplit] in NS. destruct NS as [_ NS2]. apply unsplit_app in NS2 as [NSb NSl]. cbn [unsplit] in NSl. destruct NSl as [_ NSl].
    unfold soup_text in A. cbn [flat_map part_text] in A. rewrite flat_map_app in A. cbn [flat_map part_text] in A. rewrite <- !app_assoc in A. rewrite <- P in A.
    destruct (open_run U t cs void HU sc p name attrs pad _ (or_introl S) A GN GA BP NV) as (s1 & p1 & R1 & P1 & S1 & _ & _ & C1 & Q1). specialize (S1 NR).
    apply at_adv in A; [|auto|apply start_utf8 with (U := U); auto; apply u_one; reflexivity].
    destruct (IH1 Gb NSb s1 p1 (end_tag close pad2 ++ soup_text l ++ s) S1 ltac:(unfold a; lia)) as (s2 & p2 & R2 & S2 & P2 & E2 & C2 & N2).
    { unfold a. rewrite <- P. exact A. }
    { right. eexists. reflexivity. }
    { rewrite Q1. cbn [names_of]. split; [rewrite C1; reflexivity|exact NM]. }
    apply at_adv in A; [|auto|apply soup_utf8; auto]. rewrite P in A. change (flat_map part_text body) with (soup_text body) in A. fold a in A. rewrite <- E2 in A.
    rewrite Q1 in C2. set (m := plus (cur p1) kids) in *.
    set (p3 := mkP (add_child (cur p) (set_end z (set_ets (Some b) (set_closed true m)))) (parents p) (Some b) (Some (ScannerFacts.norm U cs close)) (pending p2)).
    destruct (end_step s2 p2 close pad2 (soup_text l ++ s) p3) as (s3 & R3 & S3 & P3); [exact S2|rewrite P2; exact A|exact GC|exact BP2| |].
    { rewrite (find_some close name (rev open) _ _ around N2); [|intros y Y; apply NO; rewrite in_rev; auto|auto]. rewrite rev_length.
      rewrite (collapse_inner b (length open) _ m (cur p :: parents p)); [|cbn [end_tag_start]; rewrite P2; reflexivity|exact C2].
      cbn [bind end_tag_start end_tag_name pending]. unfold pop, upd_cur. cbn [parents cur end_tag_start end_tag_name pending]. rewrite P2. fold z. reflexivity. }
    apply at_adv in A; [|auto|apply end_utf8 with (U := U); auto].
    destruct (IH2 Gl NSl s3 p3 s S3 ltac:(unfold z; lia)) as (s4 & p4 & R4 & S4 & P4 & E4 & C4 & N4); [exact A|exact E| |].
    { cbn [cur parents p3]. eapply names_tag; [|exact NM]. reflexivity. }
    exists s4, p4. split; [eapply run_trans; [exact R1|]; eapply run_trans; [exact R2|]; eapply run_trans; eauto|]. split; [auto|]. split; [auto|].
    split; [unfold soup_text in *; cbn [flat_map part_text]; rewrite flat_map_app; cbn [flat_map part_text]; rewrite !app_length; unfold z, a in *; lia|].
    split; [|exact N4]. rewrite C4. cbn [cur parents p3]. f_equal. f_equal. unfold m. rewrite C1, P1, P. fold a. unfold add_child, plus, set_end, set_ets, set_closed, set_children.
    cbn [n_tag n_start n_end n_children n_closed n_ste n_ets n_attrs]. rewrite <- app_assoc. reflexivity.
  - apply Forall_cons_iff in G as [(GN & NR & NV & GA & BP) Gl]. cbn [unsplit] in NS. destruct NS as [_ NS2].
    unfold soup_text in A. cbn [flat_map part_text] in A. rewrite <- app_assoc in A. rewrite <- P in A.
    destruct (open_run U t cs void HU sc p name attrs pad _ (or_introl S) A GN GA BP NV) as (s1 & p1 & R1 & P1 & S1 & _ & _ & C1 & Q1). specialize (S1 NR).
    apply at_adv in A; [|auto|apply start_utf8 with (U := U); auto; apply u_one; reflexivity].
    destruct (IH Gl NS2 s1 p1 s S1 ltac:(unfold a; lia)) as (s2 & p2 & R2 & S2 & P2 & E2 & C2 & N2); [unfold a; rewrite <- P; exact A|exact E| |].
    { rewrite Q1. cbn [names_of]. split; [rewrite C1; reflexivity|exact NM]. }
    exists s2, p2. split; [eapply run_trans; eauto|]. split; [auto|]. split; [auto|]. split; [unfold soup_text in *; cbn [flat_map part_text]; rewrite app_length; unfold a in *; lia|].
    split; [|cbn [rev]; rewrite <- app_assoc; exact N2]. rewrite Q1 in C2. cbn [length]. rewrite (collapse_last _ _ _ _ _ _ _ C2). f_equal. f_equal. rewrite C1, P1, P. reflexivity.
Qed.
End Runs.

(** ** The theorems *)
(** Parsing gives the nodes the sequence stands for. *)
Theorem C82_tree : forall U cs void l e left ns, good_soup U cs void l -> denotes U cs [] 0 l e left ns ->
  parse U (soup_text l) cs void = Ok ns.
Proof.
  intros U cs void l e left ns [G NS] D. set (t := soup_text l). assert (HU : Utf8 t) by (eapply soup_utf8; eauto).
  set (sc0 := scanner_new 0 WithinContent). set (p0 := mkP (node_new 0 (length t)) [] None None None).
  assert (A : at_ t 0 (soup_text l ++ [])) by (rewrite app_nil_r; split; [reflexivity|apply Bd_0; auto]).
  destruct (soup_run U t cs void HU _ _ _ _ _ _ D G NS sc0 p0 [] eq_refl eq_refl A (or_introl eq_refl) I) as (s1 & p1 & R1 & S1 & P1 & E1 & C1 & _).
  apply run_loop in R1 as (_ & k & K & E). cbn [pos sc0 scanner_new] in K, P1. fold t in E1. cbn [Nat.add] in E1.
  unfold parse. fold sc0 p0.
  assert (F : exists f, scan_fuel t = k + S f) by (exists (scan_fuel t - k - 1); unfold scan_fuel; lia).
  destruct F as (f & ->). rewrite E. cbn [parse_loop].
  rewrite scan_internal by auto. unfold internal_scan. rewrite S1. unfold scan_content.
  rewrite eos_or_end by lia. cbn [bind tok finish]. cbn [token_eqb]. change (token_eqb EOS EOS) with true. cbn iota.
  cbn [bind]. rewrite E1 in C1. rewrite (collapse_all t _ _ _ _ C1). reflexivity.
Qed.

(** So the sequence stands for one tree only, and every sequence has one. *)
Theorem C82_unique : forall U cs void l e left ns e' left' ns', good_soup U cs void l ->
  denotes U cs [] 0 l e left ns -> denotes U cs [] 0 l e' left' ns' -> ns = ns'.
Proof. intros U cs void l e left ns e' left' ns' G D D'. apply (C82_tree U cs void) in D, D'; auto. congruence. Qed.
Theorem C82_parse : forall U cs void l, good_soup U cs void l ->
  exists left ns, denotes U cs [] 0 l (length (soup_text l)) left ns /\ parse U (soup_text l) cs void = Ok ns.
Proof. intros U cs void l G. destruct (C82_every U cs l) as (left & ns & D). exists left, ns. split; [auto|]. eapply C82_tree; eauto. Qed.

(** *** Adding the missing end tags *)
(** What is known of an element before its end: name, start, end of the start tag, attributes and
    the same for its children. *)
Inductive frame := Frame (tag : option str) (start : nat) (ste : option nat) (attrs : list (str * attribute)) (kids : list frame).
Fixpoint frame_of (n : node) : frame :=
  Frame (n_tag n) (n_start n) (n_ste n) (n_attrs n) (map frame_of (n_children n)).
Definition closers (names : list str) : list part := map (fun x => Closing x []) names.

Lemma complete U cs around o l e left ns : denotes U cs around o l e left ns ->
  exists e' ns', denotes U cs around o (l ++ closers (rev left)) e' [] ns' /\ map frame_of ns' = map frame_of ns.
Proof.
  induction 1 as [around o|around o h l e left ns D IH|around o name pad l e left ns N D IH|
    around o name attrs pad body b open kids close pad2 l e left ns a z D1 IH1 NO SN D2 IH2|around o name attrs pad body e open kids a D IH].
  - exists o, []. split; [apply D_end|reflexivity].
  - destruct IH as (e' & ns' & D' & F). exists e', (nodes_from o h ++ ns'). split; [cbn [app]; apply D_piece; auto|]. rewrite !map_app, F. reflexivity.
  - destruct IH as (e' & ns' & D' & F). exists e', ns'. split; [cbn [app]; apply D_stray; auto|auto].
  - destruct IH2 as (e' & ns' & D' & F). eexists e', (_ :: ns'). split; [cbn [app]; rewrite <- app_assoc; cbn [app]; eapply D_closed; eauto|].
    cbn [map]. rewrite F. reflexivity.
  - destruct IH as (e' & kids' & D' & F). cbn [rev]. unfold closers. rewrite map_app. cbn [map]. rewrite app_assoc. cbn [app]. eexists _, [_]. split.
    + eapply D_closed with (l := []); [exact D'|intros y []|unfold Render.same; destruct cs; reflexivity|apply D_end].
    + cbn [map frame_of n_tag n_start n_ste n_attrs n_children]. rewrite F. reflexivity.
Qed.
Lemma left_good U cs void around o l e left ns : denotes U cs around o l e left ns -> Forall (good_part U cs void) l -> Forall (good_name U) left.
Proof.
  induction 1; intros G; try apply Forall_cons_iff in G as [G1 G2]; auto.
  - apply Forall_app in G2 as [_ G2]. apply Forall_cons_iff in G2 as [_ G2]. auto.
  - apply Forall_cons; auto. apply G1.
Qed.
Lemma unsplit_closers l names : unsplit l -> unsplit (l ++ closers names).
Proof.
  induction l as [|x l IH]; cbn [app].
  - intros _. induction names as [|n names IH]; cbn; auto. split; auto. destruct names; cbn; auto.
  - cbn [unsplit]. intros [A B]. split; [|auto]. destruct l as [|y l]; cbn [app]; auto. destruct names; cbn; auto.
Qed.
Lemma unsplit_good U cs void l left : good_soup U cs void l -> Forall (good_name U) left -> good_soup U cs void (l ++ closers left).
Proof.
  intros [G NS] GL. split; [|apply unsplit_closers; auto]. apply Forall_app. split; auto. unfold closers. rewrite Forall_map.
  eapply Forall_impl; [|exact GL]. intros x X. split; auto. intros y [].
Qed.
(** With the missing end tags added, innermost element first, every element has the same place,
    start tag and children as before. *)
Theorem C82_completed : forall U cs void l e left ns, good_soup U cs void l -> denotes U cs [] 0 l e left ns ->
  exists e' ns', parse U (soup_text (l ++ closers (rev left))) cs void = Ok ns' /\
    denotes U cs [] 0 (l ++ closers (rev left)) e' [] ns' /\ map frame_of ns' = map frame_of ns.
Proof.
  intros U cs void l e left ns G D. destruct (complete _ _ _ _ _ _ _ _ D) as (e' & ns' & D' & F). exists e', ns'. split; [|auto].
  eapply C82_tree; [|exact D']. apply unsplit_good; auto. apply Forall_rev. eapply left_good; [exact D|apply G].
Qed.
Print Assumptions C82_every.
Print Assumptions C82_tree.
Print Assumptions C82_unique.
Print Assumptions C82_parse.
Print Assumptions C82_completed.

(** ** A document of this kind *)
Definition mixed : list part :=
  [Opening (bs "ul") [] []; Opening (bs "li") [] []; Piece (HText (bs "a")); Opening (bs "li") [] []; Piece (HText (bs "b"));
   Closing (bs "UL") []; Closing (bs "p") []; Opening (bs "b") [] []; Piece (HVoid (bs "br") [] [])].
Example C82_text : soup_text mixed = bs "<ul><li>a<li>b</UL></p><b><br>".
Proof. reflexivity. Qed.
Lemma mixed_good : good_soup demo_unicode false html5_void mixed.
Proof.
  assert (NV : forall n, is_void_element n html5_void = false -> ~ In n html5_void).
  { intros n H I. unfold is_void_element in H. rewrite <- not_true_iff_false in H. apply H. apply existsb_exists.
    exists n. split; auto. apply beq_refl. }
  assert (O : forall n, good_name demo_unicode n -> is_void_element n html5_void = false -> ~ is_raw demo_unicode false n -> good_part demo_unicode false html5_void (Opening n [] [])).
  { intros n A B C. split; auto. split; auto. split; auto. split; [|intros ? []]. split; [apply Forall_nil|apply NoDup_nil]. }
  assert (C : forall n, good_name demo_unicode n -> good_part demo_unicode false html5_void (Closing n [])) by (intros n A; split; auto; intros ? []).
  assert (R : forall n, beq (lower demo_unicode n) (bs "script") = false -> beq (lower demo_unicode n) (bs "style") = false -> ~ is_raw demo_unicode false n).
  { intros n A B [E|E]; unfold Render.same in E; [rewrite E in A|rewrite E in B]; discriminate. }
  split; [|cbn; repeat split; auto].
  repeat apply Forall_cons; try apply Forall_nil; try (apply O; [name|reflexivity|apply R; reflexivity]); try (apply C; name).
  - apply G_text. split; [discriminate|]. split; [apply ascii_utf8; reflexivity|cbn; intuition discriminate].
  - apply G_text. split; [discriminate|]. split; [apply ascii_utf8; reflexivity|cbn; intuition discriminate].
  - apply G_void; try name; try blanks; [intros [H|H]; discriminate|cbn; tauto|attrs_tac].
Qed.

(** The second item is inside of the first, both end at the end tag of the list, the end tag of a
    paragraph stands for nothing and the last element is left open. *)
Definition mixed_nodes : list node :=
  [mkNode (Some (bs "ul")) 0 19
     [mkNode (Some (bs "li")) 4 14
        [mkNode (Some (bs "li")) 9 14 [] false (Some 13) None []] false (Some 8) None []] true (Some 4) (Some 14) [];
   mkNode (Some (bs "b")) 23 30 [mkNode (Some (bs "br")) 26 30 [] true (Some 30) None []] false (Some 26) None []].
Example C82_mixed : denotes demo_unicode false [] 0 mixed 30 [bs "b"] mixed_nodes /\
  parse demo_unicode (soup_text mixed) false html5_void = Ok mixed_nodes.
Proof.
  assert (D : denotes demo_unicode false [] 0 mixed 30 [bs "b"] mixed_nodes).
  { apply (D_closed demo_unicode false [] 0 (bs "ul") [] [] [Opening (bs "li") [] []; Piece (HText (bs "a")); Opening (bs "li") [] []; Piece (HText (bs "b"))]
      14 [bs "li"; bs "li"] (n_children (hd (node_new 0 0) mixed_nodes)) (bs "UL") []).
    - apply (D_open demo_unicode false [bs "ul"] 4 (bs "li") [] [] _ 14 [bs "li"] [mkNode (Some (bs "li")) 9 14 [] false (Some 13) None []]).
      apply (D_piece demo_unicode false _ 8 (HText (bs "a"))).
      apply (D_open demo_unicode false _ 9 (bs "li") [] [] _ 14 [] []).
      apply (D_piece demo_unicode false _ 13 (HText (bs "b"))). apply D_end.
    - intros y [<-|[<-|[]]] E; discriminate.
    - reflexivity.
    - apply D_stray; [intros y []|].
      apply (D_open demo_unicode false [] 23 (bs "b") [] [] _ 30 [] [mkNode (Some (bs "br")) 26 30 [] true (Some 30) None []]).
      apply (D_piece demo_unicode false _ 26 (HVoid (bs "br") [] []) _ _ _ []). apply D_end. }
  split; [exact D|]. eapply C82_tree; [exact mixed_good|exact D].
Qed.
