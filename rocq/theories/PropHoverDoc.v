(** * What hovers say (C44, C45): contents, formats, termination *)
From Verif Require Import Base BaseFacts Stream Scanner ScannerFacts ScanStep ScanProps ScanShape ScanResume ScanPanic Tree
  Parser ParseSpec ParseInv ParseOrder PropParse TreeFacts PropTree TextDoc PropDoc PropTags SelectionRange ScanComplete
  ScanLocal SelAttr TokenLoop NodeScan DataManager Entities Hover PropHover PropSelection.
From Coq Require Import ZifyBool ZifyNat ZifyN.

(** ** Documentation *)
Definition md_link (r : reference) : str := bs "[" ++ ref_name r ++ bs "](" ++ ref_url r ++ bs ")".
Definition text_link (r : reference) : str := ref_name r ++ bs ": " ++ ref_url r.
(** The blocks of a documentation text: the description and the references, as links of Markdown or with
    their addresses in plain text. *)
Definition blocks (md want_doc want_refs : bool) (desc : option description) (refs : option (list reference)) : list str :=
  (match desc with Some x => if want_doc then filter (fun s => negb (length s =? 0)) [description_text x] else [] | None => [] end) ++
  (match refs with
   | Some (r :: rs) =>
       if want_refs then
         [if md then join (bs " | ") (map md_link (r :: rs))
          else join [10%N] (map text_link (r :: rs))] else []
   | _ => []
   end).
Lemma join_refs (md : bool) (r : reference) (rs : list reference) : (if md then join (bs " | ") (map ref_markdown (r :: rs)) else join [10%N] (map ref_plain (r :: rs))) <> [].
Proof.
  destruct md; cbn [map join]; destruct (map _ rs); intros E; apply (f_equal (@length N)) in E;
    unfold ref_markdown, ref_plain in E; rewrite !app_length in E; cbn in E; lia.
Qed.
(** The documentation is the blocks joined by an empty line; its kind is Markdown exactly
    if the client supports Markdown; without any block there is none. *)
Theorem C44_documentation : forall desc refs want_doc want_refs md,
  generate_documentation desc refs want_doc want_refs md =
  match blocks md want_doc want_refs desc refs with
  | [] => None
  | l => Some (mkMarkup (if md then Markdown else PlainText) (join [10%N; 10%N] l))
  end.
Proof.
  intros desc refs wd wr md. unfold generate_documentation, blocks.
  change md_link with ref_markdown. change text_link with ref_plain.
  assert (D : exists v1, (match desc with Some x => if wd then description_text x else [] | None => [] end) = v1 /\
    (match desc with Some x => if wd then filter (fun s => negb (length s =? 0)) [description_text x] else [] | None => [] end) =
    match v1 with [] => [] | _ => [v1] end).
  { destruct desc as [x|]; [destruct wd|]; eexists; split; try reflexivity. cbn [filter].
    destruct (description_text x); reflexivity. }
  destruct D as (v1 & -> & ->).
  assert (NO : match v1 ++ [] with [] => None | v => Some (mkMarkup (if md then Markdown else PlainText) v) end =
    match match v1 with [] => [] | _ => [v1] end ++ [] with [] => None | l => Some (mkMarkup (if md then Markdown else PlainText) (join [10%N; 10%N] l)) end).
  { rewrite app_nil_r. destruct v1; reflexivity. }
  destruct refs as [[|r rs]|]; auto. destruct wr; auto.
  pose proof (join_refs md r rs) as J. cbv zeta beta iota.
  destruct (if md then join (bs " | ") (map ref_markdown (r :: rs)) else join [10%N] (map ref_plain (r :: rs))) as [|c q] eqn:E; [congruence|].
  destruct md; rewrite E; destruct v1; reflexivity.
Qed.
Print Assumptions C44_documentation.

(** ** Whether the client supports Markdown *)
Theorem C44_support : forall client, does_support_markdown client = true <->
  client = None \/ exists c l, client = Some c /\ cap_completion c = Some (Some (Some (Some l))) /\ In Markdown l.
Proof.
  intros [c|]; cbn [does_support_markdown].
  - split.
    + destruct (cap_completion c) as [[[[l|]|]|]|] eqn:E; try discriminate. intros H. right.
      apply existsb_exists in H as (k & K & M). destruct k; [discriminate|]. exists c, l. auto.
    + intros [H|(c' & l & H & E & I)]; [discriminate|]. injection H as <-. rewrite E.
      apply existsb_exists. exists Markdown. auto.
  - split; auto.
Qed.
Print Assumptions C44_support.

(** ** Contents *)
Lemma last_fold {A B} (P : A -> bool) (g : A -> option B) (l : list A) : forall acc,
  fold_left (fun h a => if P a then g a else h) l acc =
  match find P (rev l) with Some a => g a | None => acc end.
Proof.
  induction l as [|a l IH] using rev_ind; intros acc; [reflexivity|].
  rewrite fold_left_app. cbn [fold_left]. rewrite rev_app_distr. cbn [rev app find]. destruct (P a); auto.
Qed.
Lemma find_last {A} (P : A -> bool) (l : list A) a : find P (rev l) = Some a <->
  exists l1 l2, l = l1 ++ a :: l2 /\ P a = true /\ Forall (fun x => P x = false) l2.
Proof.
  induction l as [|b l IH] using rev_ind.
  - split; [discriminate|]. intros (l1 & l2 & E & _). destruct l1; discriminate.
  - rewrite rev_app_distr. cbn [rev app find]. destruct (P b) eqn:PB.
    + split.
      * intros E. apply Some_inj in E. subst b. exists l, []. auto.
      * intros (l1 & l2 & E & Pa & F). destruct l2 as [|c l2] using rev_ind.
        { apply app_inj_tail in E as [_ <-]. reflexivity. }
        clear IHl2. rewrite app_comm_cons, app_assoc in E. apply app_inj_tail in E as [_ <-].
        apply Forall_app in F as [_ F]. inversion F; subst. congruence.
    + rewrite IH. split; intros (l1 & l2 & E & Pa & F).
      * exists l1, (l2 ++ [b]). subst l. rewrite <- app_assoc. repeat split; auto. apply Forall_app. auto.
      * destruct l2 as [|c l2] using rev_ind.
        { apply app_inj_tail in E as [_ <-]. congruence. }
        clear IHl2. rewrite app_comm_cons, app_assoc in E. apply app_inj_tail in E as [-> <-].
        apply Forall_app in F as [F _]. eauto.
Qed.
Lemma find_none_iff {A} (P : A -> bool) l : find P l = None <-> Forall (fun x => P x = false) l.
Proof.
  rewrite Forall_forall. split; [apply find_none|]. induction l as [|a l IH]; intros H; auto. cbn.
  rewrite H by (cbn; auto). apply IH. intros x X. apply H. cbn. auto.
Qed.
Lemma first_some_iff {A B} (f : A -> option B) l b : first_some f l = Some b <->
  exists l1 a l2, l = l1 ++ a :: l2 /\ Forall (fun x => f x = None) l1 /\ f a = Some b.
Proof.
  induction l as [|a l IH]; cbn [first_some].
  - split; [discriminate|]. intros (l1 & a & l2 & E & _). destruct l1; discriminate.
  - destruct (f a) as [b'|] eqn:F.
    + split.
      * intros E. apply Some_inj in E. subst b'. exists [], a, l. auto.
      * intros (l1 & a' & l2 & E & N & Q). destruct l1 as [|x l1]; cbn [app] in E; injection E as <- E; [congruence|].
        inversion N; subst. congruence.
    + rewrite IH. split; intros (l1 & a' & l2 & E & N & Q).
      * exists (a :: l1), a', l2. subst l. auto.
      * destruct l1 as [|x l1]; cbn [app] in E; injection E as <- E; [congruence|].
        inversion N; subst. eauto 6.
Qed.

Section Contents.
Variables (U : unicode) (cs md : bool) (providers : list provider) (lang : str) (opts : hover_settings).
(** The providers asked. *)
Definition asked : list provider := filter (fun p => pv_applicable p lang) providers.
Definition the_documentation (desc : option description) (refs : option (list reference)) : option markup :=
  generate_documentation desc refs (hs_doc opts) (hs_refs opts) md.
(** A tag entry for the name [x]. *)
Definition tag_entry (x : str) (td : tag_data) : Prop :=
  if cs then t_name td = x else lower U (t_name td) = lower U x.
Lemma same_tag_iff td x : same_tag U cs (t_name td) x = true <-> tag_entry x td.
Proof. unfold same_tag, tag_entry. destruct cs; apply beq_eq. Qed.
Lemma same_tag_false td x : same_tag U cs (t_name td) x = false <-> ~ tag_entry x td.
Proof. rewrite <- same_tag_iff. destruct (same_tag U cs (t_name td) x); split; auto; congruence. Qed.
Lemma doc_kind desc refs m : the_documentation desc refs = Some m -> mk_kind m = if md then Markdown else PlainText.
Proof.
  unfold the_documentation. rewrite C44_documentation. destruct (blocks _ _ _ _ _); [discriminate|].
  intros E. apply Some_inj in E. subst m. reflexivity.
Qed.
Lemma convert_doc desc refs m : the_documentation desc refs = Some m -> convert_contents md (HMarkup m) = HMarkup m.
Proof.
  intros E. apply doc_kind in E. unfold convert_contents. destruct md; auto. destruct m as [k v]. cbn in *. subst k. reflexivity.
Qed.

(** The hover on a tag name: the documentation of the last entry with that name of the
    first provider that has one. *)
Theorem C45_tag_contents : forall x r h, get_tag_hover U cs md providers lang opts x r = Some h <->
  exists qs p qs' tds td tds', asked = qs ++ p :: qs' /\
    Forall (fun q => Forall (fun td => ~ tag_entry x td) (pv_tags q)) qs /\
    pv_tags p = tds ++ td :: tds' /\ tag_entry x td /\ Forall (fun td => ~ tag_entry x td) tds' /\
    h = mkHover (HMarkup match the_documentation (t_desc td) (t_refs td) with
                         | Some m => m
                         | None => mkMarkup (if md then Markdown else PlainText) []
                         end) (Some r).
Proof.
  intros x r h.
  assert (F1 : forall l, fold_left (fun h0 td => if same_tag U cs (t_name td) x then Some (tag_hover_of md opts r td) else h0) l None =
    option_map (tag_hover_of md opts r) (find (fun td => same_tag U cs (t_name td) x) (rev l))).
  { intros l. rewrite (last_fold (fun td => same_tag U cs (t_name td) x) (fun td => Some (tag_hover_of md opts r td))).
    destruct (find _ _); reflexivity. }
  assert (TH : forall td, tag_hover_of md opts r td = mkHover (HMarkup match the_documentation (t_desc td) (t_refs td) with
                         | Some m => m | None => mkMarkup (if md then Markdown else PlainText) [] end) (Some r)).
  { intros td. unfold tag_hover_of. f_equal. change (doc_of md opts) with the_documentation.
    destruct (the_documentation (t_desc td) (t_refs td)) as [m|] eqn:E; [eapply convert_doc; eauto|].
    unfold convert_contents. destruct md; reflexivity. }
  unfold get_tag_hover. fold asked. rewrite first_some_iff. split.
  - intros (qs & p & qs' & E & N & Q). rewrite F1 in Q. destruct (find _ (rev (pv_tags p))) as [td|] eqn:FL; [|discriminate].
    cbn in Q. apply Some_inj in Q. apply find_last in FL as (tds & tds' & E2 & T & T').
    exists qs, p, qs', tds, td, tds'. split; auto. split.
    { eapply Forall_impl; [|exact N]. cbn. intros q Q'. rewrite F1 in Q'. destruct (find _ (rev (pv_tags q))) eqn:FQ; [discriminate|].
      apply find_none_iff in FQ. rewrite Forall_forall in *. intros y Y. apply same_tag_false. apply FQ. apply -> in_rev. auto. }
    split; auto. split; [apply same_tag_iff; auto|]. split.
    { eapply Forall_impl; [|exact T']. cbn. intros y. apply same_tag_false. }
    rewrite <- TH. auto.
  - intros (qs & p & qs' & tds & td & tds' & E & N & E2 & T & T' & ->). exists qs, p, qs'. split; auto. split.
    { eapply Forall_impl; [|exact N]. cbn. intros q Q. rewrite F1. replace (find _ (rev (pv_tags q))) with (@None tag_data); auto.
      symmetry. apply find_none_iff. rewrite Forall_forall in *. intros y Y. apply same_tag_false. apply Q. apply in_rev. auto. }
    rewrite F1. replace (find _ (rev (pv_tags p))) with (Some td); [cbn; rewrite TH; auto|].
    symmetry. apply find_last. exists tds, tds'. split; auto. split; [apply same_tag_iff; auto|].
    eapply Forall_impl; [|exact T']. cbn. intros y. apply same_tag_false.
Qed.

(** The hover on an attribute name: in the first provider that has something to say, the
    documentation of the last described entry with exactly that name. *)
Definition attr_entry (a : str) (ad : attr_data) : Prop := a_name ad = a /\ a_desc ad <> None.
(** What a provider says. *)
Definition attr_says (x a : str) (p : provider) (m : option markup) : Prop :=
  (exists l ad l', pv_attributes p x = l ++ ad :: l' /\ attr_entry a ad /\ Forall (fun ad => ~ attr_entry a ad) l' /\
     m = the_documentation (a_desc ad) (a_refs ad)) \/
  (Forall (fun ad => ~ attr_entry a ad) (pv_attributes p x) /\ m = None).
Lemma attr_entry_iff a ad : beq a (a_name ad) && is_some (a_desc ad) = true <-> attr_entry a ad.
Proof.
  unfold attr_entry. rewrite andb_true_iff, beq_eq. destruct (a_desc ad); cbn; split; intros [? ?]; split; auto; congruence.
Qed.
Theorem C45_attribute_contents : forall x a r h, get_attr_hover md providers lang opts x a r = Some h <->
  exists qs p qs' m, asked = qs ++ p :: qs' /\ Forall (fun q => attr_says x a q None) qs /\
    attr_says x a p (Some m) /\ h = mkHover (HMarkup m) (Some r).
Proof.
  intros x a r h. set (P := fun ad => beq a (a_name ad) && is_some (a_desc ad)).
  assert (PF : forall ad, P ad = false <-> ~ attr_entry a ad).
  { intros ad. rewrite <- attr_entry_iff. unfold P. destruct (_ && _); split; auto; congruence. }
  assert (F1 : forall q, exists m, attr_says x a q m /\ (forall m', attr_says x a q m' -> m' = m) /\
     fold_left (fun h0 ad => if beq a (a_name ad) && is_some (a_desc ad)
          then content_hover md r (doc_of md opts (a_desc ad) (a_refs ad)) else h0) (pv_attributes q x) None =
     option_map (fun m => mkHover (HMarkup m) (Some r)) m).
  { intros q. rewrite (last_fold P (fun ad => content_hover md r (doc_of md opts (a_desc ad) (a_refs ad)))).
    destruct (find P (rev (pv_attributes q x))) as [ad|] eqn:FL.
    - exists (the_documentation (a_desc ad) (a_refs ad)). assert (FL' := FL). apply find_last in FL as (l & l' & E & Q & N). split; [|split].
      + left. exists l, ad, l'. split; auto. split; [apply attr_entry_iff; auto|]. split; auto.
        eapply Forall_impl; [|exact N]. intros y. apply PF.
      + intros m' [(l1 & ad' & l1' & E' & Q' & N' & ->)|[N' _]].
        * assert (find P (rev (pv_attributes q x)) = Some ad').
          { apply find_last. exists l1, l1'. split; auto. split; [apply attr_entry_iff; auto|].
            eapply Forall_impl; [|exact N']. intros y. apply PF. }
          congruence.
        * exfalso. rewrite Forall_forall in N'. apply (N' ad); [rewrite E; apply in_or_app; cbn; auto|].
          apply attr_entry_iff. auto.
      + change (doc_of md opts) with the_documentation. destruct (the_documentation (a_desc ad) (a_refs ad)) as [m|] eqn:D; auto.
        cbn [content_hover option_map]. rewrite (convert_doc _ _ _ D). reflexivity.
    - exists None. apply find_none_iff in FL. assert (NA : Forall (fun ad => ~ attr_entry a ad) (pv_attributes q x)).
      { rewrite Forall_forall in *. intros y Y. apply PF. apply FL. apply -> in_rev. auto. }
      split; [right; auto|]. split; auto.
      intros m' [(l1 & ad' & l1' & E' & Q' & N' & ->)|[_ ->]]; auto. exfalso.
      rewrite Forall_forall in NA. apply (NA ad'); auto. rewrite E'. apply in_or_app. cbn. auto. }
  unfold get_attr_hover. fold asked. rewrite first_some_iff. split.
  - intros (qs & p & qs' & E & N & Q). destruct (F1 p) as (m & M1 & _ & M3). rewrite M3 in Q.
    destruct m as [m|]; [|discriminate]. cbn in Q. apply Some_inj in Q. exists qs, p, qs', m. split; auto. split; auto.
    eapply Forall_impl; [|exact N]. cbn. intros q Q'. destruct (F1 q) as (mq & Mq & _ & Mq'). rewrite Mq' in Q'.
    destruct mq; [discriminate|auto].
  - intros (qs & p & qs' & m & E & N & M & ->). exists qs, p, qs'. split; auto. split.
    + eapply Forall_impl; [|exact N]. cbn. intros q Q. destruct (F1 q) as (mq & _ & Un & Mq). rewrite Mq.
      rewrite <- (Un _ Q). reflexivity.
    + destruct (F1 p) as (mp & _ & Un & Mp). rewrite Mp. rewrite <- (Un _ M). reflexivity.
Qed.

(** The hover on a value: the first participant that answers, else the first described
    entry of the value with any documentation. *)
Definition value_entry (v : str) (vd : value_data) (m : markup) : Prop :=
  v_name vd = v /\ v_desc vd <> None /\ the_documentation (v_desc vd) (v_refs vd) = Some m.
Theorem C45_value_contents : forall parts x a v r h, get_attr_value_hover md parts providers lang opts x a v r = Some h <->
  (exists l q l', parts = l ++ q :: l' /\ Forall (fun q => hp_value q x a v r = None) l /\ hp_value q x a v r = Some h) \/
  (Forall (fun q => hp_value q x a v r = None) parts /\
   exists l vd l' m, flat_map (fun p => pv_values p x a) asked = l ++ vd :: l' /\
     Forall (fun vd => forall m, ~ value_entry v vd m) l /\ value_entry v vd m /\ h = mkHover (HMarkup m) (Some r)).
Proof.
  intros parts x a v r h. unfold get_attr_value_hover. fold asked.
  set (g := fun y => if beq v (v_name y) && is_some (v_desc y) then content_hover md r (doc_of md opts (v_desc y) (v_refs y)) else None).
  assert (FM : forall l, first_some (fun p => first_some g (pv_values p x a)) l = first_some g (flat_map (fun p => pv_values p x a) l)).
  { induction l as [|p l IH]; cbn [first_some flat_map]; auto. rewrite IH. induction (pv_values p x a) as [|y ys IH2]; cbn [first_some app]; auto.
    destruct (g y); auto. }
  assert (G : forall vd h, g vd = Some h <-> exists m, value_entry v vd m /\ h = mkHover (HMarkup m) (Some r)).
  { intros vd h'. unfold g, value_entry. change (doc_of md opts) with the_documentation. split.
    - destruct (beq v (v_name vd)) eqn:B; [|discriminate]. apply beq_eq in B. destruct (v_desc vd) as [ds|] eqn:D; [|discriminate].
      cbn [is_some andb]. destruct (the_documentation (Some ds) (v_refs vd)) as [m|] eqn:M; [|discriminate].
      cbn [content_hover]. rewrite (convert_doc _ _ _ M). intros E. apply Some_inj in E. exists m. repeat split; auto. congruence.
    - intros (m & (N & D & M) & ->). replace (beq v (v_name vd)) with true by (symmetry; apply beq_eq; auto).
      rewrite M. destruct (v_desc vd); [|congruence]. cbn [is_some andb content_hover]. rewrite (convert_doc _ _ _ M). reflexivity. }
  assert (GN : forall vd, g vd = None <-> forall m, ~ value_entry v vd m).
  { intros vd. split.
    - intros N m M. assert (g vd = Some (mkHover (HMarkup m) (Some r))) by (apply G; eauto). congruence.
    - intros N. destruct (g vd) eqn:Q; auto. apply G in Q as (m & M & _). exfalso. eapply N; eauto. }
  rewrite FM. destruct (first_some (fun q => hp_value q x a v r) parts) as [h'|] eqn:FP.
  - assert (FP' := FP). apply first_some_iff in FP' as (l & q & l' & E & N & Q). split.
    + intros H. apply Some_inj in H. subst h'. left. eauto 8.
    + intros [(l1 & q1 & l1' & E' & N' & Q')|[N' _]].
      * assert (first_some (fun q => hp_value q x a v r) parts = Some h) by (apply first_some_iff; eauto 8). congruence.
      * exfalso. rewrite Forall_forall in N'. rewrite (N' q) in Q; [discriminate|]. rewrite E. apply in_or_app. cbn. auto.
  - assert (NP : Forall (fun q => hp_value q x a v r = None) parts).
    { clear - FP. induction parts as [|q l IH]; constructor; cbn [first_some] in FP; destruct (hp_value q x a v r); auto; discriminate. }
    rewrite first_some_iff. split.
    + intros (l & vd & l' & E & N & Q). right. split; auto. apply G in Q as (m & M & ->). exists l, vd, l', m. repeat split; auto; try apply M.
      eapply Forall_impl; [|exact N]. intros y. apply GN.
    + intros [(l1 & q1 & l1' & E' & N' & Q')|(_ & l & vd & l' & m & E & N & M & ->)].
      * exfalso. rewrite Forall_forall in NP. rewrite (NP q1) in Q'; [discriminate|]. rewrite E'. apply in_or_app. cbn. auto.
      * exists l, vd, l'. split; auto. split; [|apply G; eauto]. eapply Forall_impl; [|exact N]. intros y. apply GN.
Qed.
End Contents.
Print Assumptions C45_tag_contents.
Print Assumptions C45_attribute_contents.
Print Assumptions C45_value_contents.

(** ** C44: formats *)
(** A client that does not support Markdown never gets any from the service itself. *)
Theorem C44_hover : forall U d cs md providers lang ents opts p roots h,
  do_hover U d cs md [] providers lang ents opts p roots = Ok (Some h) ->
  exists m, h_contents h = HMarkup m /\ (md = false -> mk_kind m = PlainText).
Proof.
  intros U d cs md providers lang ents opts p roots h H.
  assert (TG : forall x r h, get_tag_hover U cs md providers lang opts x r = Some h ->
    exists m, h_contents h = HMarkup m /\ (md = false -> mk_kind m = PlainText)).
  { intros x r h' Q. apply C45_tag_contents in Q as (_ & _ & _ & _ & td & _ & _ & _ & _ & _ & _ & ->). cbn. eexists. split; [reflexivity|].
    intros ->. destruct (the_documentation _ _ _ _) eqn:E; [apply doc_kind in E|]; auto. }
  unfold do_hover in H. apply bind_ok in H as (r & _ & H). destruct r as [[n ns]|]; [|discriminate].
  destruct (n_tag n) as [x|]; [|discriminate].
  destruct (match n_ets n with Some e => if e <=? offset_at d p then Some e else None | None => None end).
  { apply bind_ok in H as (tr & _ & H). apply Ok_inj in H. destruct tr; [|discriminate]. eauto. }
  apply bind_ok in H as (tr & _ & H). destruct tr; [apply Ok_inj in H; eauto|].
  apply bind_ok in H as (ar & _ & H). destruct ar.
  { apply bind_ok in H as (a & _ & H). apply Ok_inj in H. apply C45_attribute_contents in H as (qs & q & qs' & m & _ & _ & S & ->).
    cbn. eexists. split; [reflexivity|]. intros ->. destruct S as [(_ & ad & _ & _ & _ & _ & S)|[_ S]]; [|discriminate].
    symmetry in S. apply doc_kind in S. auto. }
  apply bind_ok in H as (er & _ & H). destruct er.
  { unfold get_entity_hover in H. apply bind_ok in H as (c & _ & H). apply Ok_inj in H.
    apply first_some_iff in H as (_ & e & _ & _ & _ & H). destruct (beq _ _); [|discriminate]. apply Some_inj in H. subst h.
    cbn. unfold convert_contents. destruct md; eexists; split; reflexivity. }
  apply bind_ok in H as (vr & _ & H). apply bind_ok in H as (h' & W & H). cbn [first_some] in H.
  destruct h' as [h'|]; [|discriminate]. apply Ok_inj in H. subst h'.
  destruct vr as [vr|]; [|discriminate]. apply bind_ok in W as (v & _ & W). apply bind_ok in W as (a & _ & W).
  apply Ok_inj in W. destruct a as [a|]; [|discriminate]. apply Some_inj in W.
  apply C45_value_contents in W as [(l & q & l' & E & _)|(_ & l & vd & l' & m & _ & _ & (_ & _ & M) & ->)]; [destruct l; discriminate|].
  cbn. eexists. split; [reflexivity|]. intros ->. apply doc_kind in M. auto.
Qed.
Print Assumptions C44_hover.

(** ** Termination; no panic on ASCII documents *)
Section Total.
Variables (U : unicode) (d : textdoc) (cs : bool) (void : list str) (roots : list node).
Hypothesis HD : textdoc_ok d.
Hypothesis HP : parse U (d_text d) cs void = Ok roots.
Notation t := (d_text d).
Let HU : Utf8 t := do_utf8 d HD.

Lemma hover_scan_fuel ty o : forall fuel sc, measure t sc < fuel -> hover_scan U d cs fuel ty o sc <> OutOfFuel.
Proof.
  induction fuel as [|fuel IH]; intros sc M; [lia|]. cbn [hover_scan].
  destruct (scan U t false cs sc) as [sc'|r|] eqn:S; cbn [bind]; try discriminate; [|exfalso; eapply scan_no_fuel; eauto].
  destruct (token_eqb (tok sc') EOS) eqn:T; cbn [negb andb]; [discriminate|]. apply token_eqb_neq in T.
  pose proof (scan_measure U t false cs HU _ _ S T). destruct (_ || _); [apply IH; lia|discriminate].
Qed.
Lemma attr_before_fuel stop : forall fuel sc prev, tok sc = EOS \/ measure t sc + 1 < fuel -> 1 <= fuel ->
  attr_before U d cs fuel stop sc prev <> OutOfFuel.
Proof.
  induction fuel as [|fuel IH]; intros sc prev M L; [lia|]. cbn [attr_before].
  destruct (token_eqb (tok sc) EOS) eqn:T; cbn [negb andb]; [discriminate|]. apply token_eqb_neq in T.
  destruct M as [M|M]; [congruence|].
  destruct (pos sc <=? stop); [|discriminate].
  destruct (scan U t false cs sc) as [sc'|r|] eqn:S; cbn [bind]; try discriminate; [|exfalso; eapply scan_no_fuel; eauto].
  assert (M' : tok sc' = EOS \/ measure t sc' + 1 < fuel).
  { destruct (token_eqb (tok sc') EOS) eqn:T'; [left; apply token_eqb_eq; auto|right; apply token_eqb_neq in T'].
    pose proof (scan_measure U t false cs HU _ _ S T'). lia. }
  destruct (token_eqb (tok sc') AttributeName).
  - unfold token_text, slice. destruct (_ && _); cbn [bind]; [apply IH; auto; lia|discriminate].
  - apply IH; auto. lia.
Qed.
Lemma start_measure s : measure t (scanner_new s WithinContent) < scan_fuel t.
Proof. unfold measure, scan_fuel. cbn -[Nat.mul Nat.sub Nat.leb]. destruct (length t <=? s); lia. Qed.
Theorem C45_terminates : forall md parts providers lang ents opts p,
  do_hover U d cs md parts providers lang ents opts p roots <> OutOfFuel.
Proof.
  intros md parts providers lang ents opts p.
  assert (TR : forall ty s o, hover_token_range U d cs ty s o <> OutOfFuel).
  { intros ty s o. unfold hover_token_range.
    pose proof (hover_scan_fuel ty o (scan_fuel t) (scanner_new s WithinContent) (start_measure s)).
    destruct (hover_scan _ _ _ _ _ _ _); cbn; try discriminate. congruence. }
  assert (GC : forall r, get_content d r <> OutOfFuel).
  { intros r. destruct (get_content_cases d r HD) as [(x & -> & _)| ->]; discriminate. }
  assert (BD : forall {A B} (a : res A) (f : A -> res B), a <> OutOfFuel -> (forall x, a = Ok x -> f x <> OutOfFuel) -> bind a f <> OutOfFuel).
  { intros A B a f HA HF. destruct a; cbn; auto; discriminate. }
  assert (OK : forall {A} (a : A), Ok a <> OutOfFuel) by discriminate.
  unfold do_hover.
  destruct (find_at_innermost _ _ _ _ _ (offset_at d p) HU HP) as [[-> _]|(n & ps & -> & _)]; cbn [bind]; [discriminate|].
  destruct (n_tag n); [|discriminate].
  destruct (match n_ets n with Some e => if e <=? offset_at d p then Some e else None | None => None end).
  { apply BD; auto. }
  apply BD; auto. intros tr _. destruct tr; auto.
  apply BD; auto. intros ar _. destruct ar; [apply BD; auto|].
  apply BD.
  { unfold get_entity_range, usub. destruct (_ <=? character p); discriminate. }
  intros er _. destruct er.
  { unfold get_entity_hover, filter_entity. destruct (alnum_left _ _); discriminate. }
  apply BD; auto. intros vr _. apply BD.
  - destruct vr; auto. apply BD; auto. intros v _. apply BD; auto.
    unfold scan_attr_and_attr_value. destruct (scan U t false cs (scanner_new (n_start n) WithinContent)) as [sc'|e|] eqn:S; cbn [bind];
      [|discriminate|exfalso; eapply scan_no_fuel; eauto].
    apply attr_before_fuel; [|unfold scan_fuel; lia].
    destruct (token_eqb (tok sc') EOS) eqn:T'; [left; apply token_eqb_eq; auto|right; apply token_eqb_neq in T'].
    pose proof (scan_measure U t false cs HU _ _ S T'). pose proof (start_measure (n_start n)). lia.
  - intros h _. destruct h; auto.
Qed.

Lemma ascii_scan sc : all_ascii t = true -> pos sc <= length t -> exists sc', scan U t false cs sc = Ok sc'.
Proof.
  intros AX L.
  assert (GD : Good t sc) by (intros _; left; apply boundary_Bd; auto; rewrite ascii_boundary by auto; lia).
  destruct (scan_safe U t false cs HU sc GD) as [[y' S]|[_ (_ & _ & q & c & t' & _ & _ & _ & E & Sc & Lc)]]; [eauto|].
  exfalso. destruct (scan_prefix_ne c Sc Lc) as (b & B1 & B2 & B3).
  assert (I : In b t).
  { rewrite E. apply in_app_iff. right. rewrite <- B1. apply last_in. intros Q. rewrite Q in B3. cbn in B3. lia. }
  unfold all_ascii in AX. rewrite forallb_forall in AX. apply AX in I. unfold is_cont in B2. lia.
Qed.
Lemma ascii_step sc sc' : scan U t false cs sc = Ok sc' -> tok sc' <> EOS -> pos sc' <= length t /\ tok_off sc' <= pos sc'.
Proof. intros S T. destruct (step_kind _ _ _ _ _ HU S T) as (A & B & C & _). lia. Qed.
Lemma hover_scan_ascii ty o : all_ascii t = true -> forall fuel sc, measure t sc < fuel -> pos sc <= length t ->
  exists r, hover_scan U d cs fuel ty o sc = Ok r.
Proof.
  intros AX. induction fuel as [|fuel IH]; intros sc M L; [lia|]. cbn [hover_scan].
  destruct (ascii_scan sc AX L) as (sc' & S). rewrite S. cbn [bind].
  destruct (token_eqb (tok sc') EOS) eqn:T; cbn [negb andb]; [eauto|]. apply token_eqb_neq in T.
  pose proof (scan_measure U t false cs HU _ _ S T). apply ascii_step in S as [? ?]; auto. destruct (_ || _); [apply IH; lia|eauto].
Qed.
Lemma attr_before_ascii stop : all_ascii t = true -> forall fuel sc prev, tok sc = EOS \/ measure t sc + 1 < fuel /\ pos sc <= length t ->
  1 <= fuel -> exists r, attr_before U d cs fuel stop sc prev = Ok r.
Proof.
  intros AX. induction fuel as [|fuel IH]; intros sc prev M L; [lia|]. cbn [attr_before].
  destruct (token_eqb (tok sc) EOS) eqn:T; cbn [negb andb]; [eauto|]. apply token_eqb_neq in T.
  destruct M as [M|[M L']]; [congruence|].
  destruct (pos sc <=? stop); [|eauto]. destruct (ascii_scan sc AX L') as (sc' & S). rewrite S. cbn [bind].
  assert (M' : tok sc' = EOS \/ measure t sc' + 1 < fuel /\ pos sc' <= length t).
  { destruct (token_eqb (tok sc') EOS) eqn:T'; [left; apply token_eqb_eq; auto|right; apply token_eqb_neq in T'].
    pose proof (scan_measure U t false cs HU _ _ S T'). apply ascii_step in S as [? ?]; auto. lia. }
  destruct (token_eqb (tok sc') AttributeName) eqn:TA; [|apply IH; auto; lia].
  apply token_eqb_eq in TA. assert (NE : tok sc' <> EOS) by congruence. destruct (ascii_step _ _ S NE).
  unfold token_text. rewrite ascii_slice by auto. cbn [bind]. apply IH; auto. lia.
Qed.
(** An ASCII document always gets an answer. *)
Theorem C45_ascii : forall md parts providers lang ents opts p, all_ascii t = true -> column_ok t (offset_at d p) p ->
  exists h, do_hover U d cs md parts providers lang ents opts p roots = Ok h.
Proof.
  intros md parts providers lang ents opts p AX CO.
  assert (CT : forall a b, a <= b -> b <= length t -> get_content d (range_at d a b) = Ok (sub t a b)).
  { intros a b L1 L2. unfold get_content. cbn [range_at r_start r_end].
    rewrite !(do_inv _ HD) by (try rewrite ascii_boundary by auto; lia). apply ascii_slice; auto. }
  assert (TR : forall ty s o, s <= length t -> ty <> EOS -> exists r, hover_token_range U d cs ty s o = Ok r /\
     (forall x, r = Some x -> s <= o -> exists a b, a <= b /\ b <= length t /\ x = range_at d a b)).
  { intros ty s o L NT. unfold hover_token_range.
    destruct (hover_scan_ascii ty o AX (scan_fuel t) (scanner_new s WithinContent) (start_measure s) L) as (r & E).
    rewrite E. cbn [bind]. eexists. split; [reflexivity|]. intros x X LO.
    destruct (token_eqb (tok r) ty && _) eqn:Q; [|discriminate]. apply Some_inj in X. apply andb_true_iff in Q as [Q1 Q2].
    apply token_eqb_eq in Q1. destruct (hover_scan_sound U d cs HU ty o _ _ _ E LO Q1 NT) as (m & R & LE).
    exists (tok_off r), (pos r). pose proof (runs_end U t cs HU _ _ _ R L). split; [lia|]. auto. }
  unfold do_hover.
  destruct (find_at_innermost _ _ _ _ _ (offset_at d p) HU HP) as [[-> _]|(n & ps & -> & IN & _)]; cbn [bind]; [eauto|].
  assert (I : In n (doc_nodes roots)) by apply IN.
  destruct (C12_spans _ _ _ _ _ HU HP) as [_ SP]. rewrite Forall_forall in SP. destruct (SP n I) as (S1 & S2 & S3).
  destruct (n_tag n); [|eauto].
  destruct (match n_ets n with Some e => if e <=? offset_at d p then Some e else None | None => None end) as [e|] eqn:EE.
  { destruct (n_ets n) as [e'|]; [|discriminate]. destruct (e' <=? offset_at d p); [|discriminate]. apply Some_inj in EE. subst e'.
    destruct (TR EndTag e (offset_at d p)) as (r & -> & _); [|discriminate|cbn; eauto].
    destruct (n_ste n); lia. }
  assert (LS : n_start n <= length t) by lia. assert (LO : n_start n <= offset_at d p) by (destruct IN; lia).
  destruct (TR StartTag (n_start n) (offset_at d p) LS) as (r & -> & _); [discriminate|]. cbn [bind]. destruct r; [eauto|].
  destruct (TR AttributeName (n_start n) (offset_at d p) LS) as (r & -> & R); [discriminate|]. cbn [bind]. destruct r.
  { destruct (R _ eq_refl LO) as (a & b & L1 & L2 & ->). rewrite CT by auto. cbn. eauto. }
  destruct (entity_dec t (offset_at d p)) as [(a & b & X)|X]; [apply (do_offset d HD)| |].
  - rewrite (entity_range_some d p _ a b X). 2:{ destruct X as (_ & A1 & _ & A2 & _). apply CO; [lia|]. intros i Hi. apply A2. lia. }
    cbn [bind]. erewrite entity_hover_eq by eauto. eauto.
  - rewrite entity_range_none by (auto; apply (do_offset d HD)). cbn [bind].
    destruct (TR AttributeValue (n_start n) (offset_at d p) LS) as (r & -> & R'); [discriminate|]. cbn [bind]. destruct r as [r|].
    2:{ cbn. eauto. }
    destruct (R' _ eq_refl LO) as (a & b & L1 & L2 & ->). rewrite CT by auto. cbn [bind].
    unfold scan_attr_and_attr_value. destruct (ascii_scan (scanner_new (n_start n) WithinContent) AX LS) as (sc' & S). rewrite S. cbn [bind].
    destruct (attr_before_ascii (offset_at d (r_start (range_at d a b))) AX (scan_fuel t) sc' None) as (q & ->).
    { destruct (token_eqb (tok sc') EOS) eqn:T'; [left; apply token_eqb_eq; auto|right; apply token_eqb_neq in T'].
      pose proof (scan_measure U t false cs HU _ _ S T'). pose proof (start_measure (n_start n)).
      apply ascii_step in S as [? ?]; auto. lia. }
    { unfold scan_fuel. lia. }
    cbn [bind]. destruct q; eauto.
Qed.
End Total.
Print Assumptions C45_terminates.
Print Assumptions C45_ascii.
Print Assumptions C45_start_tag.
Print Assumptions C45_reference.
Print Assumptions C45_reference_range.
Print Assumptions C45_content.
Print Assumptions C45_end_tag.
Print Assumptions C45_sound.

(** ** The hypotheses are met by an ordinary document *)
Definition demo_data : html_data := mkData
  (Some [mkTag (bs "div") (Some (DString (bs "A *division*.")))
           [mkAttr (bs "align") (Some (DString (bs "How to align"))) None
              (Some [mkValue (bs "left") (Some (DString (bs "To the left"))) None]) None]
           (Some [mkRef (bs "MDN") (bs "https://m.org/div")]) None;
         mkTag (bs "br") (Some (DMarkup (mkMarkup PlainText (bs "A line_break_")))) [] None (Some true)])
  (Some [mkAttr (bs "id") (Some (DString (bs "The id"))) None None None]) None.
Definition demo_provider : provider := html_provider demo_unicode (bs "demo") demo_data false.
Definition hover_run (md : bool) (s : str) (o : nat) : res (option (hover_contents * nat * nat)) :=
  let d := utf16_doc s in
  do roots <- parse demo_unicode s false html5_void;
  do h <- do_hover demo_unicode d false md [] [demo_provider] (bs "html") entities (mkHS true true) (position_at d o) roots;
  Ok (match h with Some (mkHover c (Some r)) => Some (c, offset_at d (r_start r), offset_at d (r_end r)) | _ => None end).
Definition hover_doc : textdoc := utf16_doc (bs "<div align='left'>é&lt;b<br></div>").
Definition hover_roots : list node := Eval vm_compute in
  match parse demo_unicode (d_text hover_doc) false html5_void with Ok r => r | _ => [] end.
Definition hover_toks : list token := Eval vm_compute in
  match doc_tokens demo_unicode (d_text hover_doc) false with Ok r => r | _ => [] end.
Definition is_innermost (o : nat) (n : node) : bool :=
  (n_start n <=? o) && (o <? n_end n) &&
  forallb (fun m => negb ((n_start m <=? o) && (o <? n_end m)) || ((n_start m <=? n_start n) && (n_end n <=? n_end m))) (doc_nodes hover_roots).
Lemma is_innermost_ok o n : In n (doc_nodes hover_roots) -> is_innermost o n = true -> innermost hover_roots o n.
Proof.
  unfold is_innermost. rewrite !andb_true_iff, forallb_forall. intros I [[A B] F]. split; auto. split; [lia|].
  intros m M L. specialize (F m M). lia.
Qed.
Definition hover_div : node := Eval vm_compute in nth 0 hover_roots (mkNode None 0 0 [] false None None []).
(** Positions: 6 in an attribute name, 14 in a value, 22 in a reference, 20 in the content, 33 in the end tag. *)
Example hover_hypotheses : textdoc_ok hover_doc /\ parse demo_unicode (d_text hover_doc) false html5_void = Ok hover_roots /\
  Forall (fun o => offset_at hover_doc (position_at hover_doc o) = o /\ innermost hover_roots o hover_div) [2; 6; 14; 20; 22; 33] /\
  n_tag hover_div = Some (bs "div") /\ n_ste hover_div = Some 18 /\ n_ets hover_div = Some 29 /\
  (exists k, start_tag_token demo_unicode hover_doc false hover_div 18 k /\ touch StartTag 2 k) /\
  (exists k, start_tag_token demo_unicode hover_doc false hover_div 18 k /\ touch AttributeName 6 k) /\
  (exists k, start_tag_token demo_unicode hover_doc false hover_div 18 k /\ touch AttributeValue 14 k) /\
  complete_tags demo_unicode hover_doc false hover_roots hover_div 22 /\
  entity_at (d_text hover_doc) 22 21 23 /\ (forall a b, ~ entity_at (d_text hover_doc) 20 a b) /\
  column_ok (d_text hover_doc) 20 (position_at hover_doc 20).
Proof.
  assert (HD : textdoc_ok hover_doc) by (apply C27_contract; exists (decode (d_text hover_doc)); vm_compute; auto).
  split; [exact HD|]. split; [vm_compute; reflexivity|].
  assert (T : doc_tokens demo_unicode (d_text hover_doc) false = Ok hover_toks) by (vm_compute; reflexivity).
  assert (TK : forall i k, nth_error hover_toks i = Some k -> (n_start hover_div <=? tk_off k) && (tk_off k <? tk_end k) && (tk_end k <=? 18) = true ->
     start_tag_token demo_unicode hover_doc false hover_div 18 k).
  { intros i k K B. exists hover_toks. split; auto. split; [eapply nth_error_In; eauto|]. lia. }
  split.
  { repeat (apply Forall_cons; [split; [vm_compute; reflexivity|apply is_innermost_ok; [left; reflexivity|vm_compute; reflexivity]]|]). constructor. }
  split; [reflexivity|]. split; [reflexivity|]. split; [reflexivity|].
  split. { exists (nth 1 hover_toks (mkToken EOS 0 0 None WithinContent)). split; [apply (TK 1); reflexivity|]. split; [reflexivity|cbn; lia]. }
  split. { exists (nth 3 hover_toks (mkToken EOS 0 0 None WithinContent)). split; [apply (TK 3); reflexivity|]. split; [reflexivity|cbn; lia]. }
  split. { exists (nth 5 hover_toks (mkToken EOS 0 0 None WithinContent)). split; [apply (TK 5); reflexivity|]. split; [reflexivity|cbn; lia]. }
  split.
  { split.
    - intros m M _. assert (F : forallb (fun m => match n_ste m with Some _ => true | None => false end) (doc_nodes hover_roots) = true)
        by (vm_compute; reflexivity). rewrite forallb_forall in F. specialize (F m M). destruct (n_ste m); congruence.
    - intros l k L K _. rewrite T in L. apply Ok_inj in L. subst l.
      assert (F : forallb (fun k => tk_off k <? tk_end k) hover_toks = true) by (vm_compute; reflexivity).
      rewrite forallb_forall in F. apply F in K. lia. }
  assert (TXT : d_text hover_doc = bs "<div align='left'>é&lt;b<br></div>") by reflexivity.
  split.
  { split; [lia|]. split; [lia|]. split; [reflexivity|]. split.
    - intros i Hi. assert (i = 21 \/ i = 22) as [-> | ->] by lia; eexists; (split; [vm_compute; reflexivity|unfold alnum; lia]).
    - intros c C. vm_compute in C. injection C as <-. unfold alnum. lia. }
  split.
  { intros a b (A & B & C & D & _). destruct (Nat.eq_dec a 20) as [-> |N]; [vm_compute in C; discriminate|].
    destruct (D 19) as (c & C1 & C2); [lia|]. vm_compute in C1. injection C1 as <-. unfold alnum in C2. lia. }
  intros a L F. destruct (Nat.eq_dec a 20) as [-> |N]; [lia|].
  destruct (F 19) as (c & C1 & C2); [lia|]. vm_compute in C1. injection C1 as <-. unfold alnum in C2. lia.
Qed.
Definition shown_hover (md : bool) (o : nat) : res (option (hover_contents * nat * nat)) := hover_run md (d_text hover_doc) o.
Example hover_results :
  shown_hover true 2 = Ok (Some (HMarkup (mkMarkup Markdown (bs "A *division*." ++ [10%N; 10%N] ++ bs "[MDN](https://m.org/div)")), 1, 4)) /\
  shown_hover false 33 = Ok (Some (HMarkup (mkMarkup PlainText (bs "A *division*." ++ [10%N; 10%N] ++ bs "MDN: https://m.org/div")), 31, 34)) /\
  shown_hover false 6 = Ok (Some (HMarkup (mkMarkup PlainText (bs "How to align")), 5, 10)) /\
  shown_hover true 14 = Ok (Some (HMarkup (mkMarkup Markdown (bs "To the left")), 11, 17)) /\
  shown_hover true 22 = Ok (Some (HMarkup (mkMarkup PlainText (bs "Character entity representing '<', unicode equivalent 'U+003C'")), 21, 24)) /\
  shown_hover true 20 = Ok None.
Proof. repeat split; vm_compute; reflexivity. Qed.

(** ** Findings *)
(** An unfinished tag followed by anything but an attribute: the hover on it is that of
    the enclosing element. *)
Theorem C45_unfinished_refuted :
  hover_run false (bs "<div><br<!-- x -->") 8 =
  Ok (Some (HMarkup (mkMarkup PlainText (bs "A *division*." ++ [10%N; 10%N] ++ bs "MDN: https://m.org/div")), 6, 8)).
Proof. vm_compute. reflexivity. Qed.
(** Tag names are matched without case, attribute names with case. *)
Theorem C45_attribute_case_refuted :
  hover_run true (bs "<DIV id=x>") 6 = Ok (Some (HMarkup (mkMarkup Markdown (bs "The id")), 5, 7)) /\
  hover_run true (bs "<DIV ID=x>") 6 = Ok None.
Proof. split; vm_compute; reflexivity. Qed.
(** Which client supports Markdown in hovers is read from its completion capability: a
    client that only takes plain text in hovers gets Markdown. *)
Theorem C44_hover_capability_refuted :
  let client := Some (mkCaps (Some (Some (Some (Some [Markdown; PlainText])))) (Some [PlainText])) in
  hover_run (does_support_markdown client) (bs "<div>") 2 =
  Ok (Some (HMarkup (mkMarkup Markdown (bs "A *division*." ++ [10%N; 10%N] ++ bs "[MDN](https://m.org/div)")), 1, 4)).
Proof. vm_compute. reflexivity. Qed.
(** The kind of a description is ignored: plain text is sent as Markdown (here the
    underscores would be lost), and Markdown (see [hover_results]) as plain text. *)
Theorem C44_description_kind_refuted :
  hover_run true (bs "<br>") 2 = Ok (Some (HMarkup (mkMarkup Markdown (bs "A line_break_")), 1, 3)).
Proof. vm_compute. reflexivity. Qed.
(** What a participant answers is passed on as it is. *)
Definition answer : hover := mkHover (HMarkup (mkMarkup Markdown (bs "*x*"))) None.
Theorem C44_participant_refuted :
  (do roots <- parse demo_unicode (bs "<p>abc</p>") false html5_void;
   do_hover demo_unicode (utf16_doc (bs "<p>abc</p>")) false false
     [mkHP (fun _ _ _ _ => None) (Some answer)] [] (bs "html") entities
     (mkHS true true) (mkPos 0 4) roots) = Ok (Some answer).
Proof. vm_compute. reflexivity. Qed.
