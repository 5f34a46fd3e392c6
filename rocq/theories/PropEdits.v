(** * What completion proposes (C49 to C53) *)
From Verif Require Import SelectionRange PropTags PropSelection Base BaseFacts Stream Scanner ScannerFacts ScanStep ScanProps ScanShape ScanResume ScanPanic Tree
  Parser ParseSpec ParseInv ParseOrder PropParse TreeFacts PropTree ParseEnd PropEnd TextDoc PropDoc ScanComplete
  ScanLocal SelAttr TokenLoop NodeScan DataManager PropData BuiltinData Entities Hover PropHover PropHoverDoc Completion PropTagComplete
  PropComplete.
From Coq Require Import ZifyBool ZifyNat ZifyN Sorted Permutation.

(** ** Helpers of the code *)
Lemma word_end_ge t fuel : forall limit o e, get_word_end t fuel limit o = Ok e -> o <= e /\ (o <= limit -> e <= limit) /\ (limit <= o -> e = o).
Proof.
  induction fuel as [|fuel IH]; intros limit o e H; cbn [get_word_end] in H; [apply Ok_inj in H; lia|].
  destruct (o <? limit) eqn:L; [|apply Ok_inj in H; lia]. destruct (get1 t o) as [b|]; [|discriminate].
  destruct (white b); [apply Ok_inj in H; lia|]. apply IH in H. lia.
Qed.
Lemma word_start_le t limit : forall o e, get_word_start t limit o = Ok e -> e <= o /\ (limit <= o -> limit <= e).
Proof.
  induction o as [|o IH]; intros e H; cbn [get_word_start] in H; [apply Ok_inj in H; lia|].
  destruct (limit <? S o) eqn:L; [|apply Ok_inj in H; lia]. destruct (get1 t o) as [b|]; [|discriminate].
  destruct (white b); [apply Ok_inj in H; lia|]. apply IH in H. lia.
Qed.
Lemma replace_end_ge t fuel : forall limit o, o <= replace_end_from t fuel limit o /\ replace_end_from t fuel limit o <= Nat.max o limit.
Proof.
  induction fuel as [|fuel IH]; intros limit o; cbn [replace_end_from]; [lia|].
  destruct (o <? limit) eqn:L; [|lia]. destruct (get1 t o) as [b|]; [|lia]. destruct (b =? 60)%N; [lia|].
  specialize (IH limit (o + 1)). lia.
Qed.

(** ** C49: the edits are at the cursor *)
(** The range of an edit contains the cursor and is part of the document. Character references
    are counted in the columns of the request. *)
Definition at_cursor (d : textdoc) (p : position) (r : range) : Prop :=
  (exists a b, r = range_at d a b /\ a <= offset_at d p <= b /\ b <= length (d_text d)) \/
  (exists c, r = mkRange (mkPos (line p) c) p /\ c <= character p).
(** The item is the answer of a participant. *)
Definition from_participant (parts : list completion_participant) (i : item) : Prop :=
  exists q, In q parts /\ (In i (cp_content q) \/ exists x y z r, In i (cp_value q x y z r)).

(** The proposal of the tag [td] in place of [r]: its name as plain text, and its documentation. *)
Definition tag_proposal (r : range) (td : tag_data) : item :=
  {| ci_label := t_name td; ci_kind := Some KProperty; ci_filter := None; ci_edit := Some (r, t_name td);
     ci_doc := match generate_documentation (t_desc td) (t_refs td) true true true with Some m => Some (DocMarkup m) | None => None end;
     ci_format := Some FPlain; ci_command := false |}.
(** The attribute value that begins at [o], if one does, ends at [e]. *)
Definition value_from (t : str) (o e : nat) : Prop :=
  plain_value t o e \/ quoted_value t o e \/ (e = o /\ forall v, ~ (plain_value t o v \/ quoted_value t o v)).
(** [a] to [e] is the word around [o]: what is not white space before and behind it, within [lo] and [hi]. *)
Definition word_around (t : str) (lo hi o a e : nat) : Prop :=
  lo <= a <= o /\ (forall i, a <= i < o -> exists c, nth_error t i = Some c /\ is_uspace c = false) /\
  (a = lo \/ exists c, nth_error t (a - 1) = Some c /\ is_uspace c = true) /\
  o <= e /\ (hi <= o -> e = o) /\ (o <= hi -> e <= hi) /\
  (forall i, o <= i < e -> exists c, nth_error t i = Some c /\ is_uspace c = false) /\
  (hi <= e \/ exists c, nth_error t e = Some c /\ is_uspace c = true).

(** The column of [p] is at least the number of bytes that precede [o] in its line. *)
Definition in_line (t : str) (o : nat) (p : position) : Prop :=
  forall a, a <= o -> (forall i, a <= i < o -> exists b, nth_error t i = Some b /\ b <> 10%N /\ b <> 13%N) -> o - a <= character p.
(** After white space, if any, comes a '>'. *)
Definition next_is_gt (t : str) (e : nat) : Prop :=
  exists j, e <= j /\ (forall i, e <= i < j -> exists b, nth_error t i = Some b /\ is_ws b = true) /\ nth_error t j = Some GT.

Section Edits.
Variables (U : unicode) (d : textdoc) (cs : bool) (void : list str) (roots : list node) (l : list token).
Hypothesis HD : textdoc_ok d.
Hypothesis HP : parse U (d_text d) cs void = Ok roots.
Hypothesis HT : doc_tokens U (d_text d) cs = Ok l.
Notation t := (d_text d).
Let HU : Utf8 t := do_utf8 d HD.
Variables (md : bool) (parts : list completion_participant) (providers : list provider) (lang : str)
  (ents : list (str * list N)) (settings : option completion_settings) (order : list (str * str) -> list (str * str)).
Variable p : position.
Let o := offset_at d p.
Definition item_ok (i : item) : Prop := from_participant parts i \/ forall r x, ci_edit i = Some (r, x) -> at_cursor d p r.

Lemma o_le : o <= length t.
Proof. apply (do_offset d HD). Qed.
Lemma replace_ok a b : o <= b <= length t -> at_cursor d p (replace_range d o a b).
Proof. intros L. left. unfold replace_range. exists (Nat.min a o), b. fold o. repeat split; lia. Qed.
Lemma scan_pos sc sc' : scan U t true cs sc = Ok sc' -> pos sc <= length t -> pos sc <= pos sc' <= length t.
Proof.
  intros S L. apply scan_outcome in S; auto. apply outcome_progress in S as (_ & Q). destruct Q as [(?&?&?&?)|[(?&?&?)|(?&?&?&?)]]; lia.
Qed.
Lemma next_end_ge sc ty e : next_end_pos U d cs o sc ty = Ok e -> o <= e <= length t.
Proof.
  unfold next_end_pos. pose proof o_le. destruct (o =? pos sc) eqn:E; [|intros H0; apply Ok_inj in H0; lia].
  intros Q. apply bind_ok in Q as (sc' & S & Q). apply scan_pos in S; [|lia].
  destruct (_ && _); apply Ok_inj in Q; lia.
Qed.
Local Ltac ok := right; intros ? ? EQ; cbn [ci_edit] in EQ; try discriminate EQ; apply Some_inj in EQ; injection EQ as <- _.
Lemma open_tag_ok a b : o <= b <= length t -> Forall item_ok (open_tag_items d providers lang settings o a b).
Proof.
  intros L. apply Forall_forall. intros i I. unfold open_tag_items in I. apply in_flat_map in I as (q & _ & I).
  apply in_map_iff in I as (td & <- & _). ok. apply replace_ok. auto.
Qed.
Lemma close_tag_ok n ps a f b items : close_tag_items U d cs md providers lang settings o n ps a f b = Ok items ->
  o <= b <= length t -> Forall item_ok items.
Proof.
  intros H L. pose proof o_le. unfold close_tag_items in H. apply bind_ok in H as (fb & _ & H).
  destruct (find _ _) as [x|].
  - destruct (n_tag x) as [tag|]; [|discriminate]. apply bind_ok in H as (i & C & H). apply Ok_inj in H. subst items.
    constructor; [|constructor]. unfold close_item in C. apply bind_ok in C as (si & _ & C). apply bind_ok in C as (a1 & _ & C).
    apply bind_ok in C as (ei & _ & C).
    destruct si as [si|]; [|apply Ok_inj in C; subst i; ok; apply replace_ok; auto].
    destruct ei as [ei|]; [|apply Ok_inj in C; subst i; ok; apply replace_ok; auto].
    destruct (beq si ei); [apply Ok_inj in C; subst i; ok; apply replace_ok; auto|].
    apply bind_ok in C as (a2 & _ & C). apply Ok_inj in C. subst i. ok. apply replace_ok. lia.
  - apply Ok_inj in H. subst items. destruct f; [constructor|]. apply Forall_forall. intros i I. apply in_flat_map in I as (q & _ & I).
    apply in_map_iff in I as (td & <- & _). ok.
Qed.
Lemma tag_items_ok n ps a b items : tag_items U d cs md providers lang settings o n ps a b = Ok items ->
  o <= b <= length t -> Forall item_ok items.
Proof.
  intros H L. unfold tag_items in H. apply bind_ok in H as (r & C & H). apply Ok_inj in H. subst items. apply Forall_app.
  split; [apply open_tag_ok; auto|eapply close_tag_ok; eauto].
Qed.
Lemma attr_name_ok n tag a b items : attr_name_items U d cs md providers lang settings order roots o n tag a b = Ok items ->
  b <= length t -> Forall item_ok items.
Proof.
  intros H L. pose proof o_le. unfold attr_name_items in H. apply bind_ok in H as (cur & _ & H). apply bind_ok in H as (f & _ & H).
  apply bind_ok in H as (pr & _ & H). apply Ok_inj in H. subst items. pose proof (replace_end_ge t (length t) b o).
  apply Forall_app. split; apply Forall_forall; intros i I; apply in_map_iff in I as (x & <- & _); ok; apply replace_ok; lia.
Qed.
Lemma attr_value_ok tag attr a b items : attr_value_items U d cs md parts providers lang settings o tag attr a b = Ok items ->
  o <= b <= length t -> Forall item_ok items.
Proof.
  intros H L. unfold attr_value_items in H. apply bind_ok in H as (qu & _ & H). apply bind_ok in H as ([[r pre] aq] & R & H).
  apply Ok_inj in H. subst items. apply Forall_app. split.
  - apply Forall_forall. intros i I. apply in_flat_map in I as (q & Q & I). left. exists q. split; auto. right. eauto.
  - assert (AC : at_cursor d p r).
    { destruct qu.
      - apply bind_ok in R as (ws & WS & R). apply bind_ok in R as (we & WE & R). apply bind_ok in R as (pr & _ & R). apply Ok_inj in R.
        injection R as <- _ _. apply word_start_le in WS. apply word_end_ge in WE. apply replace_ok.
        match type of WE with context [?X <= o -> _] => assert (X <= b) by (destruct (_ && _); lia) end. lia.
      - apply bind_ok in R as (pr & _ & R). apply Ok_inj in R. injection R as <- _ _. apply replace_ok. auto. }
    apply Forall_forall. intros i I. apply in_flat_map in I as (q & _ & I). apply in_map_iff in I as (v & <- & _). ok. auto.
Qed.
Lemma auto_close_ok e x : e = o -> Forall item_ok (auto_close_items d providers lang settings e x).
Proof.
  intros ->. pose proof o_le. unfold auto_close_items. destruct (match settings with Some s => cs_hide_auto s | None => false end); [constructor|].
  destruct (is_void_element _ _); [constructor|constructor; [|constructor]]. ok. left. exists o, o. fold o. auto.
Qed.
Lemma content_ok items : content_items d parts ents p o = Ok items -> Forall item_ok items.
Proof.
  intros H. unfold content_items in H. apply bind_ok in H as (r & E & H). apply Ok_inj in H. subst items. apply Forall_app. split.
  - apply Forall_forall. intros i I. apply in_flat_map in I as (q & Q & I). left. exists q. auto.
  - unfold entity_items in E. apply bind_ok in E as (c0 & C0 & E). destruct (alnum_left t o) as [|k]; [apply Ok_inj in E; subst; constructor|].
    destruct (nth_error t k) as [b|]; [|apply Ok_inj in E; subst; constructor]. destruct (b =? 38)%N; [|apply Ok_inj in E; subst; constructor].
    apply bind_ok in E as (c1 & C1 & E). apply Ok_inj in E. subst r. apply Forall_forall. intros i I. apply in_map_iff in I as (x & <- & _).
    ok. right. exists c1. split; auto. unfold usub in *. destruct (_ <=? _) eqn:Q1 in C0; [|discriminate]. apply Ok_inj in C0.
    destruct (_ <=? _) eqn:Q2 in C1; [|discriminate]. apply Ok_inj in C1. lia.
Qed.

Lemma step_ok n ps sc tag attr items tag' attr' : complete_step U d cs md parts providers lang ents settings order roots p o n ps sc tag attr =
    Ok (Some items, tag', attr') -> pos sc <= length t -> tok_off sc < o <= pos sc -> (tok sc = StartTagClose -> pos sc <= tok_off sc + 1) ->
  Forall item_ok items.
Proof.
  intros H L K SC. unfold complete_step in H. cbn zeta in H.
  assert (DONE : forall x, (do i <- x; Ok (Some i, tag, attr)) = Ok (Some items, tag', attr') -> x = Ok items).
  { intros x X. apply bind_ok in X as (i & -> & X). apply Ok_inj in X. injection X as -> _ _. reflexivity. }
  pose proof o_le as OL.
  destruct (tok sc) eqn:TK; try (destruct (o <? pos sc); [|discriminate]; apply DONE in H; apply Ok_inj in H; subst items; constructor).
  - destruct (pos sc =? o) eqn:B; [|discriminate]. apply bind_ok in H as (e & E & H). apply next_end_ge in E. apply DONE in H.
    apply bind_ok in H as (r & R & H). apply Ok_inj in H. subst items. apply Forall_app. split; [|eapply tag_items_ok; eauto].
    destruct (line p =? 0); [constructor; [|constructor]|constructor]. ok. apply replace_ok. auto.
  - destruct (o <=? pos sc) eqn:B; [|discriminate]. destruct tag as [x|]; [|discriminate]. apply DONE in H. apply Ok_inj in H. subst items.
    apply auto_close_ok. specialize (SC eq_refl). lia.
  - destruct (_ && _) in H; [|destruct (token_text t sc); discriminate]. apply DONE in H. apply Ok_inj in H. subst items. apply open_tag_ok. lia.
  - destruct (o <=? pos sc) eqn:B; [|discriminate]. apply bind_ok in H as (e & E & H). apply next_end_ge in E. apply DONE in H.
    eapply close_tag_ok; eauto.
  - destruct (o <=? pos sc) eqn:B; [|discriminate]. apply bind_ok in H as (k & _ & H). apply bind_ok in H as (s & _ & H).
    destruct s as [q|]; [|discriminate]. apply DONE in H. eapply close_tag_ok; eauto. lia.
  - destruct (pos sc =? o) eqn:B; [|discriminate]. apply bind_ok in H as (e & E & H). apply next_end_ge in E. apply DONE in H.
    eapply attr_value_ok; eauto.
  - destruct (_ && _) in H; [|destruct (token_text t sc); discriminate]. apply DONE in H. eapply attr_name_ok; eauto.
  - destruct (_ && _) in H; [|discriminate]. apply DONE in H. eapply attr_value_ok; eauto. lia.
  - destruct (o <=? pos sc) eqn:B; [|discriminate]. apply DONE in H. eapply content_ok; eauto.
  - destruct (o <=? pos sc) eqn:B; [|discriminate].
    destruct (st sc); try discriminate; try (apply DONE in H; (eapply attr_name_ok; eauto; fail) || (eapply attr_value_ok; eauto; lia) || (eapply content_ok; eauto)).
    + apply bind_ok in H as (e & E & H). apply next_end_ge in E. apply DONE in H. eapply tag_items_ok; eauto.
    + apply bind_ok in H as (a1 & _ & H). apply DONE in H. eapply close_tag_ok; eauto.
Qed.
Notation complete := (do_complete U d cs md parts providers lang ents settings order roots).
Lemma edits_ok items : complete p = Ok items -> Forall item_ok items.
Proof.
  intros C. destruct (found_total U d cs void roots HD HP o) as (r & F). destruct r as [[n ps]|].
  2:{ rewrite (complete_none U d cs roots md parts providers lang ents settings order p F) in C. apply Ok_inj in C. subst. constructor. }
  pose proof o_le. destruct (found U d cs void roots HD HP o n ps F) as (_ & _ & L & _).
  destruct (covering U d cs l HD HT o) as (l1 & k & l2 & E & K); [lia|].
  destruct (complete_at U d cs void roots l HD HP HT md parts providers lang ents settings order p n ps l1 k l2 F E K)
    as (pre & mid & m & z & sc & X & R & M & S & NE & TK & _ & _ & C').
  rewrite C in C'. unfold answer in C'. symmetry in C'. apply bind_ok in C' as ([[r tg] at'] & ST & C'). apply Ok_inj in C'.
  cbn [fst] in C'. destruct r as [i|]; [|subst; constructor]. subst i.
  assert (KK : tok_off sc = tk_off k /\ pos sc = tk_end k) by (rewrite <- TK; auto).
  pose proof (doc_tiles _ _ _ _ HU HT) as TL. assert (B : tk_end k <= length t).
  { pose proof (tiles_bounds _ _ _ k TL) as B. rewrite E in B. specialize (B ltac:(apply in_or_app; cbn; auto)). lia. }
  eapply step_ok; eauto; try lia. intros T. apply scan_shape in S; auto. unfold token_shape in S. cbn [token_of tk_type tk_off tk_end] in S.
  rewrite T in S. destruct S as [S|S]; [|lia]. assert (LS := f_equal (@length _) S). unfold sub in LS. rewrite firstn_length, skipn_length in LS. cbn in LS. lia.
Qed.

(** ** C53: termination *)
Lemma followed_fuel ty : forall fuel sc, pos sc <= length t -> length t - pos sc < fuel -> followed U d cs fuel ty sc <> OutOfFuel.
Proof.
  induction fuel as [|fuel IH]; intros sc L F; [lia|]. cbn [followed]. pose proof (scan_no_fuel U t false cs HU sc) as N.
  destruct (scan U t false cs sc) as [sc'|e|] eqn:S; cbn [bind]; try discriminate; [|congruence].
  destruct (token_eqb (tok sc') Whitespace) eqn:W; [|discriminate]. apply token_eqb_eq in W.
  destruct (step_kind _ _ _ _ _ HU S) as (A & B & C & _); [congruence|]. apply IH; lia.
Qed.
Lemma is_followed_fuel b s ty : b <= length t -> is_followed_by U d cs b s ty <> OutOfFuel.
Proof. intros L. apply followed_fuel; cbn [scanner_new pos]; auto. unfold scan_fuel. lia. Qed.
Local Ltac nf := repeat first [ discriminate | apply bind_fuel; [|intros ? ?] ].
Lemma slice_fuel a b : slice t a b <> OutOfFuel.
Proof. unfold slice. destruct (_ && _); discriminate. Qed.
Lemma usub_fuel a b : usub a b <> OutOfFuel.
Proof. unfold usub. destruct (_ <=? _); discriminate. Qed.
Lemma indent_fuel a : get_line_indent t a <> OutOfFuel.
Proof. unfold get_line_indent. destruct (line_indent_start t a); [|discriminate]. apply bind_fuel; [apply slice_fuel|discriminate]. Qed.
Lemma next_fuel sc ty : next_end_pos U d cs o sc ty <> OutOfFuel.
Proof.
  unfold next_end_pos. destruct (o =? pos sc); [|discriminate]. apply bind_fuel; [apply (scan_no_fuel U t true cs HU)|]. intros a _. destruct (_ && _); discriminate.
Qed.
Lemma close_fuel n ps a f b : b <= length t -> close_tag_items U d cs md providers lang settings o n ps a f b <> OutOfFuel.
Proof.
  intros L. unfold close_tag_items. apply bind_fuel; [apply is_followed_fuel; auto|]. intros fb _. destruct (find _ _) as [x|]; [|discriminate].
  destruct (n_tag x) as [tag|]; [|discriminate]. apply bind_fuel; [|discriminate]. unfold close_item.
  apply bind_fuel; [apply indent_fuel|intros si _]. apply bind_fuel; [apply usub_fuel|intros a1 _]. apply bind_fuel; [apply indent_fuel|intros ei _].
  destruct si, ei; try discriminate. destruct (beq _ _); [discriminate|]. apply bind_fuel; [apply usub_fuel|discriminate].
Qed.
Lemma names_fuel n tag a b : b <= length t -> attr_name_items U d cs md providers lang settings order roots o n tag a b <> OutOfFuel.
Proof.
  intros L. unfold attr_name_items. apply bind_fuel; [destruct (b <? a); apply slice_fuel|intros cur _].
  apply bind_fuel; [apply is_followed_fuel; auto|intros f _]. apply bind_fuel; [|discriminate].
  destruct (used _ _ _); [discriminate|]. destruct tag; discriminate.
Qed.
Lemma word_fuel limit : forall x, get_word_start t limit x <> OutOfFuel.
Proof. induction x as [|x IH]; cbn [get_word_start]; [discriminate|]. destruct (limit <? _); [|discriminate]. destruct (get1 t x); [|discriminate]. destruct (white n); [discriminate|auto]. Qed.
Lemma word_fuel' limit : forall fuel x, get_word_end t fuel limit x <> OutOfFuel.
Proof. induction fuel as [|fuel IH]; intros x; cbn [get_word_end]; [discriminate|]. destruct (x <? limit); [|discriminate]. destruct (get1 t x); [|discriminate]. destruct (white n); [discriminate|auto]. Qed.
Lemma values_fuel tag attr a b : attr_value_items U d cs md parts providers lang settings o tag attr a b <> OutOfFuel.
Proof.
  unfold attr_value_items. apply bind_fuel; [destruct (_ && _); [|discriminate]; destruct (get1 t a); discriminate|intros q _].
  apply bind_fuel; [|intros [[r pre] aq] _; discriminate]. destruct q.
  - apply bind_fuel; [apply word_fuel|intros ws _]. apply bind_fuel; [apply word_fuel'|intros we _]. apply bind_fuel; [|discriminate].
    destruct (_ && _); [apply slice_fuel|discriminate].
  - apply bind_fuel; [apply slice_fuel|discriminate].
Qed.
Lemma content_fuel' : content_items d parts ents p o <> OutOfFuel.
Proof.
  unfold content_items. apply bind_fuel; [|discriminate]. unfold entity_items. apply bind_fuel; [apply usub_fuel|intros c0 _].
  destruct (alnum_left t o); [discriminate|]. destruct (nth_error t n); [|discriminate]. destruct (_ =? _)%N; [|discriminate].
  apply bind_fuel; [apply usub_fuel|discriminate].
Qed.
Lemma slash_fuel : forall k, slash_before d k <> OutOfFuel.
Proof.
  induction k as [|k IH]; cbn [slash_before]; [discriminate|]. destruct (get1 _ _); [|discriminate]. destruct (_ =? _)%N; [discriminate|].
  destruct (white n); [auto|discriminate].
Qed.
Lemma step_fuel n ps sc tag attr : pos sc <= length t ->
  complete_step U d cs md parts providers lang ents settings order roots p o n ps sc tag attr <> OutOfFuel.
Proof.
  intros L. pose proof o_le as OL. unfold complete_step. cbn zeta.
  assert (DONE : forall x : res (list item), x <> OutOfFuel -> (do i <- x; Ok (Some i, tag, attr)) <> OutOfFuel).
  { intros x N. apply bind_fuel; [auto|discriminate]. }
  assert (TX : token_text t sc <> OutOfFuel) by apply slice_fuel.
  assert (NE : forall ty e, next_end_pos U d cs o sc ty = Ok e -> e <= length t) by (intros ty e E; apply next_end_ge in E; lia).
  assert (TI : forall a e, e <= length t -> tag_items U d cs md providers lang settings o n ps a e <> OutOfFuel).
  { intros a e Le. unfold tag_items. apply bind_fuel; [apply close_fuel; auto|discriminate]. }
  destruct (tok sc); try (destruct (o <? pos sc); discriminate).
  - destruct (pos sc =? o); [|discriminate]. apply bind_fuel; [apply next_fuel|intros e E]. apply DONE, bind_fuel; [eauto|discriminate].
  - destruct (o <=? pos sc); [|discriminate]. destruct tag; discriminate.
  - destruct (_ && _); [discriminate|]. apply bind_fuel; [auto|discriminate].
  - destruct (o <=? pos sc); [|discriminate]. apply bind_fuel; [apply next_fuel|intros e E]. apply DONE, close_fuel. eauto.
  - destruct (o <=? pos sc); [|discriminate]. apply bind_fuel; [apply usub_fuel|intros k _]. apply bind_fuel; [apply slash_fuel|intros s _].
    destruct s; [apply DONE, close_fuel; auto|discriminate].
  - destruct (pos sc =? o); [|discriminate]. apply bind_fuel; [apply next_fuel|intros e E]. apply DONE, values_fuel.
  - destruct (_ && _); [apply DONE, names_fuel; auto|]. apply bind_fuel; [auto|discriminate].
  - destruct (_ && _); [|discriminate]. apply DONE, values_fuel.
  - destruct (o <=? pos sc); [|discriminate]. apply DONE, content_fuel'.
  - destruct (o <=? pos sc); [|discriminate].
    destruct (st sc); try discriminate; try (apply DONE; (apply names_fuel; lia) || apply values_fuel || apply content_fuel').
    + apply bind_fuel; [apply next_fuel|intros e E]. apply DONE. eauto.
    + apply bind_fuel; [apply usub_fuel|intros a1 _]. apply DONE, close_fuel. auto.
Qed.
Lemma complete_fuel : complete p <> OutOfFuel.
Proof.
  destruct (found_total U d cs void roots HD HP o) as (r & F). destruct r as [[n ps]|].
  2:{ rewrite (complete_none U d cs roots md parts providers lang ents settings order p F). discriminate. }
  pose proof o_le. destruct (found U d cs void roots HD HP o n ps F) as (_ & _ & L & _).
  destruct (covering U d cs l HD HT o) as (l1 & k & l2 & E & K); [lia|].
  destruct (complete_at U d cs void roots l HD HP HT md parts providers lang ents settings order p n ps l1 k l2 F E K)
    as (pre & mid & m & z & sc & X & R & M & S & NE & TK & _ & _ & ->).
  assert (KK : tok_off sc = tk_off k /\ pos sc = tk_end k) by (rewrite <- TK; auto).
  pose proof (doc_tiles _ _ _ _ HU HT) as TL. assert (B : tk_end k <= length t).
  { pose proof (tiles_bounds _ _ _ k TL) as B. rewrite E in B. specialize (B ltac:(apply in_or_app; cbn; auto)). lia. }
  unfold answer. apply bind_fuel; [|discriminate]. apply step_fuel. lia.
Qed.

(** ** The name of the tag around an attribute *)
Lemma at_gt_no_attr i e : nth_error t i = Some GT -> ~ attr_name t i e.
Proof.
  intros N (A & B & C & D). replace (char_run attr_char (skipn i t)) with 0 in D; [lia|]. symmetry.
  assert (E : exists r, skipn i t = GT :: r).
  { destruct (skipn i t) as [|b r] eqn:Q; pose proof (skipn_nth_error t i 0) as X; rewrite Q, Nat.add_0_r, N in X; cbn in X; [discriminate|].
    injection X as ->. eauto. }
  destruct E as (r & ->). reflexivity.
Qed.
Lemma at_gt_no_ws i : nth_error t i = Some GT -> skip_ws t i = None.
Proof.
  intros N. unfold skip_ws. destruct (skipn i t) as [|b r] eqn:Q; pose proof (skipn_nth_error t i 0) as X; rewrite Q, Nat.add_0_r, N in X; cbn in X; [discriminate|].
  injection X as ->. reflexivity.
Qed.
Lemma at_gt_no_slash i : nth_error t i = Some GT -> is_prefix (bs "/>") (skipn i t) = false.
Proof.
  intros N. destruct (skipn i t) as [|b r] eqn:Q; pose proof (skipn_nth_error t i 0) as X; rewrite Q, Nat.add_0_r, N in X; cbn in X; [discriminate|].
  injection X as ->. reflexivity.
Qed.
Definition named (tag : option str) (sc : scanner) : Prop :=
  tag <> None \/ in_tag (st sc) = false \/ st sc = AfterOpeningStartTag \/
  (st sc = WithinTag /\ (nth_error t (pos sc) = Some GT \/ length t <= pos sc)).
Lemma named_step tag sc sc' : scan U t true cs sc = Ok sc' -> named tag sc -> named (tag_upd t tag (token_of sc')) sc'.
Proof.
  intros S N. unfold tag_upd. cbn [token_of tk_type]. destruct (token_eqb (tok sc') StartTag) eqn:TS; [left; discriminate|].
  apply token_eqb_neq in TS. destruct N as [N|N]; [left; auto|]. right. apply scan_outcome in S; auto.
  assert (GTC : forall x sc1, tag_outcome U t true cs sc1 x -> nth_error t (pos sc1) = Some GT -> in_tag (st x) = false).
  { intros x sc1 T G. inversion T; subst; cbn [finish st]; auto.
    - rewrite at_gt_no_ws in H; auto. discriminate.
    - exfalso. eapply at_gt_no_attr; eauto.
    - unfold after_close. repeat (match goal with |- context [if ?b then _ else _] => destruct b | |- context [match ?b with _ => _ end] => destruct b end; auto).
    - congruence. }
  destruct N as [N|[N|[N1 N2]]].
  - inversion S; subst; cbn [finish st pos tok] in *; auto; try (match goal with E : st sc = _ |- _ => rewrite E in N; discriminate N end).
    + inversion H0; subst; match goal with E : st _ = _ |- _ => rewrite E in N; discriminate N end.
    + left. destruct H2 as [-> |[-> _]]; reflexivity.
  - inversion S; subst; cbn [finish st pos tok] in *; auto; try congruence.
    + right. right. split; auto. destruct H0 as (F1 & F2 & F3 & [F4|F4]); auto. right. lia.
    + inversion H0; subst; try congruence. left. eapply GTC; eauto.
  - inversion S; subst; cbn [finish st pos tok] in *; auto; try congruence.
    inversion H0; subst; try congruence. left. eapply GTC; eauto. destruct N2; auto. lia.
Qed.
Lemma named_runs m : forall tag sc z, runs U t true cs sc m z -> named tag sc -> named (fold_left (tag_upd t) (map token_of m) tag) z.
Proof.
  induction m as [|x m IH]; intros tag sc z R N; [inversion R; subst; auto|]. apply runs_inv in R as (S & _ & R). cbn [map fold_left].
  eapply IH; eauto. eapply named_step; eauto.
Qed.
Lemma tag_name_known n m g sc : runs U t true cs (scanner_new (n_start n) WithinContent) m g -> scan U t true cs g = Ok sc ->
  in_tag (st g) = true -> st g <> AfterOpeningStartTag -> tok sc <> EOS -> tok sc <> StartTagClose -> tag_at t (map token_of m) <> None.
Proof.
  intros R S I N NE NC. assert (X : named (tag_at t (map token_of m)) g).
  { apply (named_runs m None _ _ R). right. left. reflexivity. }
  destruct X as [X|[X|[X|[X1 X2]]]]; auto; try congruence. exfalso. apply scan_outcome in S; auto.
  inversion S; subst; cbn [finish tok] in *; try congruence; try (destruct H as [H|[[H ?]|[H ?]]]; congruence).
  - destruct H; congruence.
  - inversion H0; subst; try congruence. destruct X2 as [X2|X2]; [|lia]. inversion H1; subst; cbn [finish tok] in *; try congruence.
    + rewrite at_gt_no_ws in H3; auto. discriminate.
    + eapply at_gt_no_attr; eauto.
    + rewrite at_gt_no_slash in H3; auto. discriminate.
Qed.

(** ** The attribute a value belongs to *)
Definition wants (s : sstate) : Prop := s = AfterAttributeName \/ s = BeforeAttributeValue.
Lemma owner_runs m : forall done sc z, runs U t false cs sc m z -> (wants (st sc) -> exists ka, value_name done ka) ->
  wants (st z) -> exists ka, value_name (done ++ map token_of m) ka.
Proof.
  induction m as [|x m IH]; intros done sc z R HA WZ.
  - inversion R; subst. cbn [map]. rewrite app_nil_r. auto.
  - apply runs_inv in R as (S & NE & R). destruct (step_kind _ _ _ _ _ HU S NE) as (_ & _ & _ & K). cbn [map].
    replace (done ++ token_of x :: map token_of m) with ((done ++ [token_of x]) ++ map token_of m) by (rewrite <- app_assoc; auto).
    eapply IH; eauto. intros ST. destruct K as [K1 K2 K3 K4|K1 K2 K3 K4|K1 K2 K3|K1 K2 K3 K4].
    + exists (token_of x). exists done, []. auto.
    + unfold wants in ST. rewrite K4 in ST. destruct ST; discriminate.
    + destruct HA as (ka & l1 & l2 & -> & X & F); [left; auto|]. exists ka, l1, (l2 ++ [token_of x]).
      rewrite <- app_assoc. split; auto. split; auto. apply Forall_app; auto.
    + unfold wants in ST. tauto.
Qed.
Lemma attr_at_value ks ka : value_name ks ka -> attr_at t ks = tk_text t ka.
Proof.
  intros (l1 & l2 & -> & A & F). unfold attr_at. rewrite fold_left_app. cbn [fold_left]. unfold attr_upd at 2. rewrite A. cbn [token_eqb].
  change (token_eqb AttributeName AttributeName) with true. cbv iota.
  generalize (tk_text t ka). induction F as [|k l2 K F IH]; intros x; auto. cbn [fold_left]. unfold attr_upd at 2.
  destruct K as [-> | ->]; apply IH.
Qed.
Lemma tag_runs_false m : forall sc g, runs U t true cs sc m g -> Forall (fun x => in_tag (st x) = true) m -> runs U t false cs sc m g.
Proof.
  intros sc g R F. apply runs_emit_all; auto. revert sc R. induction F as [|x m I F IH]; intros sc R; [constructor|].
  apply runs_inv in R as (S & NE & R). constructor; [|eauto]. apply scan_outcome in S; auto. apply outcome_progress in S as (Q & Q2).
  destruct Q2 as [(E & _)|[(_ & ?)|(_ & _ & _ & _ & W & _)]]; [congruence|lia|]. rewrite W in I. discriminate.
Qed.
Lemma op_in_tag op : In op l -> tk_type op = StartTagOpen -> in_tag (tk_state op) = true.
Proof.
  intros K T. destruct (doc_step U d cs l HT op K) as (a & b & S & _ & <-). cbn [token_of tk_type tk_state] in *. apply scan_outcome in S; auto.
  inversion S; subst; cbn in *; try discriminate; auto. inversion H1; subst; discriminate.
Qed.
(** The scan that reaches a token of a start tag. *)
Lemma complete_tag_parts l1 k l2 : l = l1 ++ k :: l2 -> tk_off k < o <= tk_end k -> in_tag (tk_state k) = true ->
  tk_type k = AttributeValue \/ tk_type k = DelimiterAssign -> exists n ps ks g sc x,
    start_tag_at roots n o /\ token_of sc = k /\ n_tag n = Some x /\ tk_type k <> EOS /\ (exists pre, l1 = pre ++ ks) /\
    scan U t true cs g = Ok sc /\ (wants (st g) -> exists ka, value_name ks ka) /\
    complete p = answer (complete_step U d cs md parts providers lang ents settings order roots p o n ps sc (Some x) (attr_at t ks)).
Proof.
  intros E K IK TY.
  assert (NK : tk_type k <> StartTagOpen) by (destruct TY; congruence). assert (NS : tk_type k <> StartTag) by (destruct TY; congruence).
  assert (NA : tk_state k <> AfterOpeningStartTag).
  { assert (Ik : In k l) by (rewrite E; apply in_elt). destruct (doc_step U d cs l HT k Ik) as (a & b & S & _ & <-).
    cbn [token_of tk_type tk_state] in *. apply scan_outcome in S; auto. destruct TY as [TY|TY]; inversion S; subst; cbn [finish st tok] in *; try congruence;
      match goal with T : tag_outcome _ _ _ _ _ _ |- _ => inversion T; subst; cbn [finish st tok] in *; congruence | _ => idtac end. }
  destruct (complete_in_tag U d cs void roots l HD HP HT md parts providers lang ents settings order p l1 k l2 E K IK NK)
    as (n & ps & pre & op & ks & q & post & sc & F & I & E1 & E2 & O1 & O2 & FT & _ & _ & AT & TG & L & LAST & ES & TK & C & zz & R & M).
  specialize (TG NA NS).
  assert (Iop : In op l) by (rewrite E, E1; apply in_or_app; left; apply in_or_app; cbn; auto).
  change (op :: ks ++ [k]) with ((op :: ks) ++ [k]) in M. apply map_eq_app in M as (m & m2 & -> & M1 & M2).
  destruct m2 as [|y m2]; [discriminate|]. destruct m2; [|discriminate]. injection M2 as M2.
  apply runs_app in R as (g & R & R2). apply runs_inv in R2 as (S & NE & R2). assert (y = sc) by (inversion R2; auto); subst y. clear R2.
  assert (FM : Forall (fun x => in_tag (st x) = true) m).
  { assert (X : Forall (fun k => in_tag (tk_state k) = true) (op :: ks)).
    { constructor; [apply op_in_tag; auto|]. apply Forall_app in FT. tauto. }
    rewrite <- M1, Forall_map in X. exact X. }
  assert (IG : in_tag (st g) = true).
  { destruct (in_tag_step U t cs HU _ _ _ S) as [Q|Q]; auto; [rewrite <- TK in IK; exact IK|]. rewrite <- TK in NK. cbn in NK. congruence. }
  assert (TN : tag_in t ks <> None).
  { destruct (sstate_eq_dec (st g) AfterOpeningStartTag) as [SG|SG].
    - exfalso. assert (TY' : tok sc = AttributeValue \/ tok sc = DelimiterAssign) by (rewrite <- TK in TY; exact TY).
      assert (SO := S). apply scan_outcome in SO; auto. destruct TY' as [Y|Y]; inversion SO; subst; cbn [finish st tok] in *; try congruence;
      inversion H1; subst; cbn [finish st tok] in *; congruence.
    - assert (X := tag_name_known n m g sc R S IG SG NE). rewrite M1 in X. unfold tag_at in X. cbn [fold_left] in X. unfold tag_upd at 2 in X.
      rewrite O1 in X. cbn [token_eqb] in X. rewrite tag_at_in in X. intros Q. rewrite Q in X. apply X; auto. intros Q'.
      apply close_step with (U := U) (d := d) (cs := cs) in S; auto. rewrite <- TK in IK. cbn in IK. destruct S. congruence. }
  destruct (tag_in t ks) as [x|] eqn:TX; [|congruence].
  exists n, ps, ks, g, sc, x. split; [repeat split; auto; try lia; intros s Es; specialize (ES s Es); lia|].
  split; [auto|]. split; [auto|]. split; [rewrite <- TK; exact NE|]. split; [exists (pre ++ [op]); rewrite <- app_assoc; auto|]. split; [auto|]. split; [|exact C].
  intros WG. destruct (owner_runs m [] _ g (tag_runs_false _ _ _ R FM)) as (ka & V); auto; [intros [Q|Q]; discriminate|].
  rewrite M1 in V. cbn [app] in V. exists ka. destruct V as (u & v & EV & A & FV). destruct u as [|u0 u]; cbn [app] in EV; injection EV as EV1 EV2.
  - subst op. congruence.
  - exists u, v. auto.
Qed.

(** ** The end tag after '</' *)
Lemma followed_close fuel : forall sc f, st sc = WithinEndTag -> followed U d cs fuel EndTagClose sc = Ok f ->
  (f = true <-> next_is_gt t (pos sc)).
Proof.
  induction fuel as [|fuel IH]; intros sc f ST H; [discriminate|]. cbn [followed] in H. apply bind_ok in H as (sc' & S & H).
  apply scan_outcome in S; auto.
  inversion S; subst; cbn [finish tok st pos] in *; try congruence; try (destruct H0 as [H0|[[H0 ?]|[H0 ?]]]; congruence);
    try (match type of H with (if token_eqb ?a ?b then _ else _) = _ => change (token_eqb a b) with false in H; cbv iota in H end).
  - apply Ok_inj in H. subst f. split; [discriminate|]. intros (j & J1 & _ & J2). apply nth_error_lt in J2. lia.
  - change (token_eqb Whitespace Whitespace) with true in H. cbv iota in H. apply IH in H; auto. rewrite H. cbn [finish pos].
    apply skip_ws_some in H1 as (A & B & C & D). split; intros (j & J1 & J2 & J3).
    + exists j. split; [lia|]. split; auto. intros i I. destruct (Nat.lt_ge_cases i e); [apply C; lia|apply J2; lia].
    + exists j. assert (e <= j).
      { destruct (Nat.le_gt_cases e j); auto. destruct (C j) as (b & B1 & B2); try lia. rewrite J3 in B1. injection B1 as <-. discriminate. }
      split; auto. split; auto. intros i I. apply J2. lia.
  - apply Ok_inj in H. subst f. split; auto. intros _. exists (pos sc). split; auto. split; auto. intros; lia.
  - apply Ok_inj in H. subst f. split; [discriminate|]. intros (j & J1 & J2 & J3). exfalso.
    destruct (Nat.eq_dec j (pos sc)) as [->|NJ]; [congruence|]. destruct (J2 (pos sc)) as (b & B1 & B2); [lia|].
    rewrite (skip_ws_none _ _ H3 b B1) in B2. discriminate.
  - inversion H1; congruence.
Qed.
Definition in_use (q : provider) : Prop :=
  In q providers /\ pv_applicable q lang = true /\
  forall s b, settings = Some s -> assoc (pv_id q) (cs_provider s) = Some b -> b = true.
Lemma used_in q : In q (used providers lang settings) <-> in_use q.
Proof.
  unfold in_use, used. rewrite filter_In. unfold enabled. split.
  - intros (Q1 & Q2). apply andb_prop in Q2 as [Q2 Q3]. repeat split; auto. intros s b -> B. rewrite B in Q3. auto.
  - intros (Q1 & Q2 & Q3). split; auto. rewrite Q2. destruct settings as [s|]; auto.
    destruct (assoc (pv_id q) (cs_provider s)) eqn:B; auto. rewrite (Q3 s b eq_refl B). auto.
Qed.
Lemma open_items a b i : In i (open_tag_items d providers lang settings o a b) <->
  exists q td, in_use q /\ In td (pv_tags q) /\ i = tag_proposal (replace_range d o a b) td.
Proof.
  unfold open_tag_items. split.
  - intros I. apply in_flat_map in I as (q & Q & I). apply in_map_iff in I as (td & <- & I).
    exists q, td. rewrite <- used_in. auto.
  - intros (q & td & Q & I & ->). apply in_flat_map. exists q. rewrite used_in. split; auto.
    change (tag_proposal (replace_range d o a b) td) with (tag_item (replace_range d o a b) td). apply in_map. auto.
Qed.
Lemma tag_names l1 k l2 : l = l1 ++ k :: l2 -> tk_type k = StartTag -> tk_off k < o <= tk_end k ->
  complete p = Ok (open_tag_items d providers lang settings o (tk_off k) (tk_end k)).
Proof.
  intros E T K. assert (Ik : In k l) by (rewrite E; apply in_elt).
  assert (IT : in_tag (tk_state k) = true).
  { destruct (doc_step U d cs l HT k Ik) as (a & b & S & _ & <-). cbn [token_of tk_type tk_state] in *. apply scan_outcome in S; auto.
    inversion S; subst; cbn [finish tok st] in *; try congruence; auto. inversion H1; subst; cbn [finish tok st] in *; congruence. }
  destruct (complete_in_tag U d cs void roots l HD HP HT md parts providers lang ents settings order p l1 k l2 E K IT)
    as (n & ps & pre & op & ks & q & post & sc & _ & _ & _ & _ & _ & _ & _ & _ & _ & _ & _ & _ & _ & _ & TK & C & _); [congruence|].
  rewrite C. unfold complete_step. cbn zeta. replace (tok sc) with StartTag by (rewrite <- T, <- TK; reflexivity).
  replace (tok_off sc) with (tk_off k) by (rewrite <- TK; reflexivity). replace (pos sc) with (tk_end k) by (rewrite <- TK; reflexivity).
  replace ((tk_off k <=? offset_at d p) && (offset_at d p <=? tk_end k)) with true by (fold o; lia). reflexivity.
Qed.
Lemma value_labels tag attr a b items : attr_value_items U d cs md parts providers lang settings o tag attr a b = Ok items ->
  exists r dq from, let tg := match tag with Some x => x | None => [] end in
    items = from ++ flat_map (fun q => map (value_item md r dq) (pv_values q tg attr)) (used providers lang settings) /\
    Forall (from_participant parts) from /\
    (dq = false <-> a < o <= b /\ exists c, nth_error t a = Some c /\ (c = 34%N \/ c = 39%N)) /\
    (dq = true -> r = replace_range d o a b).
Proof.
  intros H. unfold attr_value_items in H. apply bind_ok in H as (qu & Q & H). apply bind_ok in H as ([[r pre] aq] & R & H). apply Ok_inj in H.
  exists r, aq, (flat_map (fun q => cp_value q (fold_name U cs match tag with Some x => x | None => [] end) (fold_name U cs attr) pre (replace_range d o a b)) parts).
  split; [auto|]. split.
  { apply Forall_forall. intros i I. apply in_flat_map in I as (q & I1 & I). exists q. split; auto. right. eauto. }
  assert (AQ : aq = negb qu /\ (aq = true -> r = replace_range d o a b)).
  { destruct qu.
    - apply bind_ok in R as (ws & _ & R). apply bind_ok in R as (we & _ & R). apply bind_ok in R as (pr & _ & R). apply Ok_inj in R.
      injection R as <- _ <-. split; auto. discriminate.
    - apply bind_ok in R as (pr & _ & R). apply Ok_inj in R. injection R as <- _ <-. auto. }
  destruct AQ as [-> AQ]. split; auto. destruct ((a <? o) && (o <=? b)) eqn:X.
  - destruct (get1 t a) as [c|] eqn:G; [|discriminate]. apply Ok_inj in Q. subst qu.
    assert (G' : nth_error t a = Some c). { unfold get1 in G. destruct (nth_error t a); [|discriminate]. destruct (_ <? _)%N in G; congruence. }
    rewrite G'. unfold quote_char. split.
    + intros N. split; [lia|]. exists c. split; auto. lia.
    + intros (_ & c' & E & V). injection E as <-. destruct V as [-> | ->]; reflexivity.
  - apply Ok_inj in Q. subst qu. cbn. split; [discriminate|]. intros [N _]. lia.
Qed.
(** Values, with the cursor in the value or right behind the '='. *)
Lemma slice_text a b v : slice t a b = Ok v -> v = sub t a b.
Proof. unfold slice. destruct (_ && _); [|discriminate]. intros H. apply Ok_inj in H. auto. Qed.
Lemma word_start_shape lo : forall x a, lo <= x -> get_word_start t lo x = Ok a -> lo <= a <= x /\
  (forall i, a <= i < x -> exists c, nth_error t i = Some c /\ is_uspace c = false) /\
  (a = lo \/ exists c, nth_error t (a - 1) = Some c /\ is_uspace c = true).
Proof.
  induction x as [|x IH]; intros a L H; cbn [get_word_start] in H.
  - apply Ok_inj in H. subst a. split; [lia|]. split; [intros; lia|]. left. lia.
  - destruct (lo <? S x) eqn:Q; [|apply Ok_inj in H; subst a; split; [lia|]; split; [intros; lia|left; lia]].
    destruct (get1 t x) as [b|] eqn:G; [|discriminate]. assert (N : nth_error t x = Some b).
    { unfold get1 in G. destruct (nth_error t x); [|discriminate]. destruct (_ <? _)%N in G; congruence. }
    unfold white in H. destruct (is_uspace b) eqn:W.
    + apply Ok_inj in H. subst a. split; [lia|]. split; [intros; lia|]. right. exists b. rewrite Nat.sub_succ, Nat.sub_0_r. auto.
    + apply IH in H as (A & B & D); [|lia]. split; [lia|]. split; [|exact D]. intros i I. destruct (Nat.eq_dec i x) as [->|]; [eauto|]. apply B. lia.
Qed.
Lemma word_end_shape hi : hi <= length t -> forall fuel x e, hi - x <= fuel -> get_word_end t fuel hi x = Ok e -> x <= e /\
  (hi <= x -> e = x) /\ (x <= hi -> e <= hi) /\ (forall i, x <= i < e -> exists c, nth_error t i = Some c /\ is_uspace c = false) /\
  (hi <= e \/ exists c, nth_error t e = Some c /\ is_uspace c = true).
Proof.
  intros LH. induction fuel as [|fuel IH]; intros x e L H; cbn [get_word_end] in H.
  - apply Ok_inj in H. subst e. repeat (split; [intros; lia|]). left. lia.
  - destruct (x <? hi) eqn:Q; [|apply Ok_inj in H; subst e; repeat (split; [intros; lia|]); left; lia].
    destruct (get1 t x) as [b|] eqn:G; [|discriminate]. assert (N : nth_error t x = Some b).
    { unfold get1 in G. destruct (nth_error t x); [|discriminate]. destruct (_ <? _)%N in G; congruence. }
    unfold white in H. destruct (is_uspace b) eqn:W.
    + apply Ok_inj in H. subst e. repeat (split; [intros; lia|]). eauto.
    + apply IH in H as (A & B & D & E & F); [|lia]. split; [lia|]. split; [lia|]. split; [lia|]. split; [|exact F].
      intros i I. destruct (Nat.eq_dec i x) as [->|]; [eauto|]. apply E. lia.
Qed.
Lemma value_shape tag attr wa we items : we <= length t -> attr_value_items U d cs md parts providers lang settings o tag attr wa we = Ok items ->
  exists a e pre dq, let tg := match tag with Some x => x | None => [] end in
    items = flat_map (fun q => cp_value q (fold_name U cs tg) (fold_name U cs attr) pre (replace_range d o wa we)) parts ++
      flat_map (fun q => map (value_item md (range_at d a e) dq) (pv_values q tg attr)) (used providers lang settings) /\
    (dq = false <-> wa < o <= we /\ exists c, nth_error t wa = Some c /\ (c = 34%N \/ c = 39%N)) /\
    (dq = false -> exists hi, (nth_error t (we - 1) = nth_error t wa -> hi = we - 1) /\
       (nth_error t (we - 1) <> nth_error t wa -> hi = we) /\ word_around t (wa + 1) hi o a e /\
       (o < hi -> pre = sub t (wa + 1) o) /\ (hi <= o -> pre = [])) /\
    (dq = true -> a = Nat.min wa o /\ e = we /\ pre = sub t wa o).
Proof.
  intros LW H. unfold attr_value_items in H. apply bind_ok in H as (qu & Q & H). apply bind_ok in H as ([[r pre] aq] & R & H). apply Ok_inj in H.
  assert (QQ : qu = true <-> wa < o <= we /\ exists c, nth_error t wa = Some c /\ (c = 34%N \/ c = 39%N)).
  { destruct ((wa <? o) && (o <=? we)) eqn:X.
    - destruct (get1 t wa) as [c|] eqn:G; [|discriminate]. apply Ok_inj in Q. subst qu.
      assert (G' : nth_error t wa = Some c). { unfold get1 in G. destruct (nth_error t wa); [|discriminate]. destruct (_ <? _)%N in G; congruence. }
      rewrite G'. unfold quote_char. split.
      + intros N. split; [lia|]. exists c. split; auto. lia.
      + intros (_ & c' & E & V). injection E as <-. destruct V as [-> | ->]; reflexivity.
    - apply Ok_inj in Q. subst qu. cbn. split; [discriminate|]. intros [N _]. lia. }
  clear Q. destruct qu.
  - destruct (proj1 QQ eq_refl) as (LO & c & NC & CQ). assert (GC : get1 t wa = Some c) by (unfold get1; rewrite NC; replace (c <? 128)%N with true by lia; reflexivity).
    rewrite GC in R. replace (wa <? we) with true in R by lia. cbn [andb] in R.
    set (hi := if match get1 t (we - 1) with Some x => (x =? c)%N | None => false end then we - 1 else we) in *.
    apply bind_ok in R as (ws & R1 & R). apply bind_ok in R as (e & R2 & R). apply bind_ok in R as (pr & R3 & R). apply Ok_inj in R. injection R as R0 <- <-.
    exists ws, e, pr, false. apply word_start_shape in R1; [|lia]. assert (HL : hi <= length t) by (unfold hi; destruct (match get1 t (we - 1) with Some x => (x =? c)%N | None => false end); lia).
    apply word_end_shape in R2; [|lia|lia].
    assert (HE : (nth_error t (we - 1) = Some c -> hi = we - 1) /\ (nth_error t (we - 1) <> Some c -> hi = we)).
    { unfold hi, get1. destruct (nth_error t (we - 1)) as [x|]; [|split; [discriminate|auto]]. destruct (x <? 128)%N eqn:X.
      - destruct (N.eqb_spec x c) as [->|NE]; split; auto; congruence.
      - split; auto. intros E. injection E as ->. lia. }
    destruct R1 as (A1 & A2 & A3).
    split; [cbn zeta; rewrite <- H; do 2 f_equal; subst r; unfold replace_range; rewrite Nat.min_l by lia; reflexivity|].
    split; [split; auto; intros _; apply QQ; reflexivity|]. split; [|discriminate]. intros _. exists hi. rewrite NC. destruct HE as [H1 H2]. split; [exact H1|]. split; [exact H2|].
    split; [unfold word_around; tauto|]. replace (wa + 1 <=? o) with true in R3 by lia. cbn [andb] in R3. destruct (o <? hi) eqn:OH.
    + split; [|lia]. intros _. eapply slice_text; eauto.
    + apply Ok_inj in R3. split; [lia|auto].
  - apply bind_ok in R as (pr & R3 & R). apply Ok_inj in R. injection R as R0 <- <-. exists (Nat.min wa o), we, pr, true.
    split; [cbn zeta; rewrite <- H; do 2 f_equal; subst r; reflexivity|]. split; [split; [discriminate|]; intros X; apply QQ in X; discriminate|].
    split; [discriminate|]. intros _. repeat (split; [reflexivity|]). eapply slice_text; eauto.
Qed.
Lemma next_value sc e : pos sc = o -> st sc = BeforeAttributeValue -> next_end_pos U d cs o sc AttributeValue = Ok e -> value_from t o e.
Proof.
  intros PO SB N. unfold next_end_pos in N. rewrite PO, Nat.eqb_refl in N. apply bind_ok in N as (sc' & S & N). apply scan_outcome in S; auto.
  assert (WS : forall e', skip_ws t o = Some e' -> forall v, ~ (plain_value t o v \/ quoted_value t o v)).
  { intros e' W v Q. apply skip_ws_some in W as (W1 & _ & W2 & _). destruct (W2 o) as (b & B & BW); [lia|lia|]. destruct Q as [(_ & _ & _ & n & N1 & N2 & _)|(q & Q & A & _)].
    - rewrite (char_run_at_ascii t val_char o b) in N2; auto; unfold is_ws, val_char, is_uspace in *; lia.
    - unfold SQUOTE, DQUOTE in Q. rewrite B in A. injection A as ->. unfold is_ws in BW. lia. }
  inversion S; subst; cbn [finish tok tok_off pos] in *; try congruence; try (match goal with Z : content_like _ _ |- _ => destruct Z as [Z|[[Z _]|[Z _]]]; congruence end); try (match goal with Z : st _ = _ \/ st _ = _ |- _ => destruct Z; congruence end).
  - cbn [token_eqb andb] in N. apply Ok_inj in N. subst e. right. right. split; auto. intros v Q.
    destruct Q as [(Q & Q2 & _)|(q & _ & Q & _)]; [lia|]. apply nth_error_lt in Q. lia.
  - inversion H0; subst; try congruence. assert (Q : forall v, ~ (plain_value t o v \/ quoted_value t o v)).
    { rewrite <- PO. intros v [(_ & _ & _ & n & N1 & N2 & _)|(q & [E | E] & A & _)]; [|subst q; match goal with Z : nth_error _ _ <> _ |- _ => solve [elim Z; exact A] end..]. match goal with Z : char_run _ _ = 0 |- _ => rewrite Z in N2 end. lia. }
    replace (token_eqb (tok sc') AttributeValue) with false in N by (inversion H1; subst; reflexivity). cbn [andb] in N. apply Ok_inj in N. subst e.
    right. right. auto.
  - cbn [token_eqb andb] in N. apply Ok_inj in N. subst e. right. right. split; auto. rewrite PO in *. eauto.
  - rewrite PO, Nat.eqb_refl in N. cbn [token_eqb andb] in N. apply Ok_inj in N. subst e0. left. rewrite <- PO. auto.
  - rewrite PO, Nat.eqb_refl in N. cbn [token_eqb andb] in N. apply Ok_inj in N. subst e0. right. left. rewrite <- PO. auto.
Qed.
Lemma values_at l1 k l2 items : l = l1 ++ k :: l2 -> tk_off k < o <= tk_end k ->
  tk_type k = AttributeValue \/ tk_type k = DelimiterAssign -> complete p = Ok items ->
  exists n x ka a b, start_tag_at roots n o /\ n_tag n = Some x /\ value_name l1 ka /\
    (tk_type k = AttributeValue -> a = tk_off k /\ b = tk_end k) /\ (tk_type k = DelimiterAssign -> a = o /\ o <= b /\ value_from t o b) /\
    attr_value_items U d cs md parts providers lang settings o (Some x) (tk_text t ka) a b = Ok items.
Proof.
  intros E K TY C. assert (Ik : In k l) by (rewrite E; apply in_elt).
  assert (IT : in_tag (tk_state k) = true).
  { destruct (doc_step U d cs l HT k Ik) as (a & b & S & _ & <-). cbn [token_of tk_type tk_state] in *. apply scan_outcome in S; auto.
    destruct TY as [TY|TY]; inversion S; subst; cbn [finish tok st] in *; try congruence; auto; inversion H1; subst; cbn [finish tok st] in *; congruence. }
  destruct (complete_tag_parts l1 k l2 E K IT TY) as (n & ps & ks & g & sc & x & SA & TK & TX & NE & (pre & E1) & S & V & C').
  assert (WG : wants (st g)).
  { assert (TY' : tok sc = AttributeValue \/ tok sc = DelimiterAssign) by (rewrite <- TK in TY; exact TY). unfold wants.
    apply scan_outcome in S; auto. destruct TY' as [Y|Y]; inversion S; subst; cbn [finish tok st] in *; try congruence; auto; inversion H1; subst; cbn [finish tok st] in *; congruence. }
  destruct (V WG) as (ka & VK). rewrite (attr_at_value ks ka VK) in C'. rewrite C in C'. symmetry in C'. unfold answer in C'.
  apply bind_ok in C' as ([[r tg] at'] & ST & C'). apply Ok_inj in C'. cbn [fst] in C'.
  unfold complete_step in ST. cbn zeta in ST. fold o in ST. replace (tok sc) with (tk_type k) in ST by (rewrite <- TK; reflexivity).
  replace (tok_off sc) with (tk_off k) in ST by (rewrite <- TK; reflexivity). replace (pos sc) with (tk_end k) in ST by (rewrite <- TK; reflexivity).
  assert (V' : value_name l1 ka). { destruct VK as (u & v & -> & A & F). exists (pre ++ u), v. rewrite <- app_assoc, E1. auto. }
  destruct TY as [TY|TY]; rewrite TY in ST.
  - replace ((tk_off k <=? o) && (o <=? tk_end k)) with true in ST by lia. apply bind_ok in ST as (i & A & ST). apply Ok_inj in ST.
    injection ST as <- _ _. subst i. exists n, x, ka, (tk_off k), (tk_end k). repeat (split; [tauto|]). split; [congruence|auto].
  - assert (L1 : tk_end k <= tk_off k + 1).
    { destruct (doc_step U d cs l HT k Ik) as (u & w & S' & _ & <-). cbn [token_of tk_type tk_off tk_end] in *. apply scan_outcome in S'; auto.
      inversion S'; subst; cbn [finish tok tok_off pos] in *; try congruence; try lia. inversion H1; subst; cbn [finish tok st] in *; congruence. }
    replace (tk_end k =? o) with true in ST by lia. apply bind_ok in ST as (e & N & ST).
    assert (VF : value_from t o e).
    { assert (TS : tok sc = DelimiterAssign) by (rewrite <- TK in TY; exact TY).
      apply (next_value sc); auto; [|apply scan_outcome in S; auto; inversion S; subst; cbn [finish tok st] in *; try congruence; inversion H1; subst; cbn [finish tok st] in *; congruence].
      rewrite <- TK in L1, K. cbn [token_of tk_off tk_end] in *. lia. }
    apply next_end_ge in N.
    apply bind_ok in ST as (i & A & ST). apply Ok_inj in ST. injection ST as <- _ _. subst i.
    exists n, x, ka, o, e. repeat (split; [tauto|]). split; [congruence|]. split; auto. split; auto. split; auto. lia.
Qed.

(** The element an end tag is proposed for: as [innermost_open], among those with a name. *)
Definition innermost_named (e : nat) (y : node) (x : str) : Prop :=
  In y (doc_nodes roots) /\ n_tag y = Some x /\ PropEnd.open_at e y /\ n_ets y <> Some e /\
  forall m, In m (doc_nodes roots) -> n_tag m <> None -> PropEnd.open_at e m -> n_ets m <> Some e -> n_start m <= n_start y.
Lemma open_at_unclosed y : Completion.open_at o y = true <-> n_tag y <> None /\ unclosed o y = true.
Proof. unfold Completion.open_at, unclosed. destruct (n_tag y); split; intros H; [split; [discriminate|auto]|tauto|discriminate|destruct H; congruence]. Qed.
Lemma named_find k n ps y x : In k l -> tk_type k = EndTagOpen -> tk_end k = o -> finished l o ->
  find_node_before roots o = Ok (Some (n, ps)) ->
  (find (Completion.open_at o) (n :: rev ps) = Some y /\ n_tag y = Some x <-> innermost_named (tk_off k) y x).
Proof.
  intros K KT KE FI F. apply finished_whole in FI.
  destruct (found U d cs void roots HD HP _ _ _ F) as (P & _).
  pose proof (parsed_wf _ _ _ _ _ HU HP) as W. pose proof (path_order _ _ _ P W) as SS.
  assert (OP := slash_open U d cs void roots l HD HP HT k o n ps K KT KE FI F).
  assert (PA := slash_path U d cs void roots l HD HP HT k o n ps K KT KE FI F).
  assert (FWD : forall y x, find (Completion.open_at o) (n :: rev ps) = Some y -> n_tag y = Some x -> innermost_named (tk_off k) y x).
  { intros y0 x0 FY TY. destruct (find_some _ _ FY) as [Y OA]. apply open_at_unclosed in OA as [_ UC]. destruct (OP y0 Y UC) as [O1 O2].
    split; [apply (slash_in U d cs void roots HD HP o n ps); auto|]. split; auto. split; auto. split; auto. intros m M NT OM NM.
    destruct (PA m M OM NM) as [IM UM]. eapply find_first; eauto. apply open_at_unclosed. auto. }
  split; [intros [A B]; auto|]. intros (Y & TY & O1 & O2 & MX). destruct (PA y Y O1 O2) as [IM UM].
  assert (OY : Completion.open_at o y = true) by (apply open_at_unclosed; split; congruence).
  destruct (find (Completion.open_at o) (n :: rev ps)) as [y'|] eqn:FY.
  - split; auto. f_equal. destruct (find_some _ _ FY) as [Y' OA]. apply open_at_unclosed in OA as [NT' UC'].
    destruct (n_tag y') as [x'|] eqn:TX'; [|congruence]. destruct (FWD y' x' eq_refl TX') as (YY & _ & A1 & A2 & A3).
    apply (same_start U d cs void roots HD HP); auto. specialize (A3 y Y ltac:(congruence) O1 O2). specialize (MX y' YY ltac:(congruence) A1 A2). lia.
  - exfalso. apply (find_none _ _ FY y) in IM. congruence.
Qed.
Lemma end_tag_step k n ps items : In k l -> tk_type k = EndTagOpen -> tk_end k = o ->
  find_node_before roots o = Ok (Some (n, ps)) -> complete p = Ok items ->
  exists e, (e = o \/ name_text U t o e) /\
    close_tag_items U d cs md providers lang settings o n ps (tk_off k + 1) false e = Ok items.
Proof.
  intros K KT KE F C. destruct (slash_byte U d cs l HD HT k K KT) as [KL _].
  apply in_split in K as (l1 & l2 & E).
  destruct (complete_at U d cs void roots l HD HP HT md parts providers lang ents settings order p n ps l1 k l2 F E)
    as (pre & mid & m & z & sc & X & R & M & S & NE & TK & _ & _ & C'); [fold o; lia|].
  rewrite C in C'. symmetry in C'. unfold answer in C'. apply bind_ok in C' as ([[r tg] at'] & ST & C'). apply Ok_inj in C'. cbn [fst] in C'.
  unfold complete_step in ST. cbn zeta in ST. fold o in ST. replace (tok sc) with EndTagOpen in ST by (rewrite <- KT, <- TK; reflexivity).
  replace (tok_off sc) with (tk_off k) in ST by (rewrite <- TK; reflexivity).
  assert (PS : pos sc = o) by (rewrite <- KE, <- TK; reflexivity). rewrite PS, Nat.leb_refl in ST. apply bind_ok in ST as (e & N & ST).
  apply bind_ok in ST as (i & A & ST). apply Ok_inj in ST. injection ST as <- _ _. subst i.
  exists e. split; auto. unfold next_end_pos in N. destruct (o =? pos sc); [|apply Ok_inj in N; auto]. apply bind_ok in N as (sc' & S' & N).
  destruct (token_eqb (tok sc') EndTag && (tok_off sc' =? o)) eqn:Q; apply Ok_inj in N; auto. apply andb_prop in Q as [Q1 Q2].
  apply token_eqb_eq in Q1. right. apply scan_shape in S'; auto. unfold token_shape in S'. cbn [token_of tk_type tk_off tk_end] in S'.
  rewrite Q1, N in S'. replace o with (tok_off sc') by lia. auto.
Qed.
Lemma close_items_named k n ps y x e items : In k l -> tk_type k = EndTagOpen -> tk_end k = o ->
  find (Completion.open_at o) (n :: rev ps) = Some y -> n_tag y = Some x ->
  close_tag_items U d cs md providers lang settings o n ps (tk_off k + 1) false e = Ok items ->
  exists i f, items = [i] /\ ci_label i = bs "/" ++ x /\ (f = true <-> next_is_gt t e) /\
    let close := if f : bool then [] else bs ">" in
    (ci_edit i = Some (range_at d (tk_off k + 1) e, bs "/" ++ x ++ close) \/
     exists a si, a <= tk_off k /\ ci_edit i = Some (range_at d a o, si ++ bs "</" ++ x ++ close)).
Proof.
  intros K KT KE FY TY H. destruct (slash_byte U d cs l HD HT k K KT) as [KL _].
  unfold close_tag_items in H. apply bind_ok in H as (f & FO & H). apply followed_close in FO; auto. cbn [scanner_new pos] in FO.
  rewrite FY, TY in H. apply bind_ok in H as (i & C & H). apply Ok_inj in H. subst items.
  exists i, f. split; auto. unfold close_item in C. apply bind_ok in C as (si & _ & C). apply bind_ok in C as (a1 & A1 & C).
  apply bind_ok in C as (ei & _ & C). unfold usub in A1. replace (1 <=? tk_off k + 1) with true in A1 by lia. apply Ok_inj in A1.
  assert (SIMPLE : forall q, Ok (mkItem (bs "/" ++ x) (Some KProperty) None (Some (bs "/" ++ x))
                  (Some (replace_range d o (tk_off k + 1) e, bs "/" ++ x ++ (if f : bool then [] else bs ">"))) (Some FPlain) false) = Ok q ->
     ci_label q = bs "/" ++ x /\ ci_edit q = Some (range_at d (tk_off k + 1) e, bs "/" ++ x ++ (if f then [] else bs ">"))).
  { intros q Q. apply Ok_inj in Q. subst q. split; auto. cbn [ci_edit]. unfold replace_range. rewrite Nat.min_l by lia. reflexivity. }
  assert (SD : Ok (mkItem (bs "/" ++ x) (Some KProperty) None (Some (bs "/" ++ x))
                  (Some (replace_range d o (tk_off k + 1) e, bs "/" ++ x ++ (if f : bool then [] else bs ">"))) (Some FPlain) false) = Ok i \/
    exists a2 si ei, usub a1 (length ei) = Ok a2 /\ Ok (mkItem (bs "/" ++ x) (Some KProperty) None (Some (ei ++ bs "</" ++ x))
                 (Some (replace_range d o a2 o, si ++ bs "</" ++ x ++ (if f : bool then [] else bs ">"))) (Some FPlain) false) = Ok i).
  { destruct si as [si|]; [|auto]. destruct ei as [ei|]; [|auto]. destruct (beq si ei); [auto|]. apply bind_ok in C as (a2 & A2 & C). right. exists a2, si, ei. auto. }
  destruct SD as [SD|(a2 & si' & ei' & A2 & SD)].
  - apply SIMPLE in SD as [S1 S2]. split; auto.
  - apply Ok_inj in SD. subst i. split; auto. split; auto. right. exists a2, si'. unfold usub in A2. destruct (_ <=? _) in A2; [|discriminate].
    apply Ok_inj in A2. split; [lia|]. cbn [ci_edit]. unfold replace_range. rewrite Nat.min_l by lia. reflexivity.
Qed.
Lemma close_items_none n ps a e items : find (Completion.open_at o) (n :: rev ps) = None ->
  close_tag_items U d cs md providers lang settings o n ps a false e = Ok items ->
  forall x, In x (map ci_label items) <-> exists q td, in_use q /\ In td (pv_tags q) /\ x = bs "/" ++ t_name td.
Proof.
  intros FN H x. unfold close_tag_items in H. apply bind_ok in H as (f & _ & H). rewrite FN in H. apply Ok_inj in H. subst items.
  rewrite in_map_iff. split.
  - intros (i & <- & I). apply in_flat_map in I as (q & Q & I). apply in_map_iff in I as (td & <- & I). exists q, td. rewrite <- used_in. auto.
  - intros (q & td & Q & I & ->). exists (end_tag_item md td). split; [reflexivity|]. apply in_flat_map. exists q. rewrite used_in.
    split; auto. apply in_map. auto.
Qed.

(** ** ASCII documents: no panic *)
Definition np {A} (x : res A) : Prop := forall e, x <> Panic e.
Lemma np_bind {A B} (x : res A) (f : A -> res B) : np x -> (forall a, x = Ok a -> np (f a)) -> np (bind x f).
Proof. unfold np. destruct x; cbn; intros H1 H2; auto; try discriminate. exfalso. eapply H1. reflexivity. Qed.
Lemma np_ok {A} (a : A) : np (Ok a).
Proof. intros e. discriminate. Qed.
Section Ascii.
Hypothesis AX : all_ascii t = true.
Hypothesis CO : in_line t o p.
Lemma get1_np i : i < length t -> exists b, get1 t i = Some b.
Proof.
  intros L. unfold get1. destruct (nth_error t i) as [b|] eqn:N; [|apply nth_error_None in N; lia].
  unfold all_ascii in AX. rewrite forallb_forall in AX. rewrite (AX b (nth_error_In _ _ N)). eauto.
Qed.
Lemma slice_np a b : a <= b -> b <= length t -> np (slice t a b).
Proof. intros L1 L2. rewrite ascii_slice by auto. apply np_ok. Qed.
Lemma usub_np a b : b <= a -> np (usub a b).
Proof. intros L. unfold usub. replace (b <=? a) with true by lia. apply np_ok. Qed.
Lemma scan_np emit sc : pos sc <= length t -> np (scan U t emit cs sc).
Proof.
  intros L. assert (GD : Good t sc) by (intros _; left; apply boundary_Bd; auto; rewrite ascii_boundary by auto; lia).
  destruct (scan_safe U t emit cs HU sc GD) as [[y' S]|[_ (_ & _ & q & c & t' & _ & _ & _ & E & Sc & Lc)]]; [rewrite S; apply np_ok|].
  exfalso. destruct (scan_prefix_ne c Sc Lc) as (b & B1 & B2 & B3).
  assert (I : In b t).
  { rewrite E. apply in_app_iff. right. rewrite <- B1. apply last_in. intros Q. rewrite Q in B3. cbn in B3. lia. }
  unfold all_ascii in AX. rewrite forallb_forall in AX. apply AX in I. unfold is_cont in B2. lia.
Qed.
Lemma followed_np ty : forall fuel sc, pos sc <= length t -> np (followed U d cs fuel ty sc).
Proof.
  induction fuel as [|fuel IH]; intros sc L; cbn [followed]; [intros e; discriminate|]. apply np_bind; [apply scan_np; auto|].
  intros sc' S. destruct (token_eqb (tok sc') Whitespace) eqn:W; [|apply np_ok]. apply token_eqb_eq in W.
  destruct (step_kind _ _ _ _ _ HU S) as (A & B & C & _); [congruence|]. apply IH; lia.
Qed.
Lemma next_np sc ty : pos sc <= length t -> np (next_end_pos U d cs o sc ty).
Proof.
  intros L. unfold next_end_pos. destruct (o =? pos sc); [|apply np_ok]. apply np_bind; [apply scan_np; auto|]. intros. destruct (_ && _); apply np_ok.
Qed.
Lemma indent_start_le : forall a s, line_indent_start t a = Some s -> s <= a.
Proof.
  induction a as [|a IH]; intros s H; cbn [line_indent_start] in H; [injection H as <-; lia|].
  destruct (get1 t a) as [b|]; [|apply IH in H; lia]. destruct (b =? 10)%N; [injection H as <-; lia|]. destruct (white b); [|discriminate]. apply IH in H. lia.
Qed.
Lemma indent_np a : a <= length t -> np (get_line_indent t a) /\ forall s, get_line_indent t a = Ok (Some s) -> length s <= a.
Proof.
  intros L. unfold get_line_indent. destruct (line_indent_start t a) as [s|] eqn:E; [|split; [apply np_ok|discriminate]].
  apply indent_start_le in E. rewrite ascii_slice by auto. cbn [bind]. split; [apply np_ok|]. intros x X. apply Ok_inj, Some_inj in X. subst x.
  unfold sub. rewrite firstn_length. lia.
Qed.
Lemma close_np n ps a f b : b <= length t -> 1 <= a <= length t + 1 -> Forall (fun x => n_start x <= length t) (n :: rev ps) ->
  np (close_tag_items U d cs md providers lang settings o n ps a f b).
Proof.
  intros L LA F. unfold close_tag_items. apply np_bind; [apply followed_np; auto|]. intros fb _. destruct (find _ _) as [x|] eqn:FX; [|apply np_ok].
  destruct (find_some _ _ FX) as [IX OX]. unfold Completion.open_at in OX. destruct (n_tag x) as [tag|]; [|discriminate].
  assert (X : n_start x <= length t).
  { rewrite Forall_forall in F. apply F. destruct f; [right; auto|auto]. }
  apply np_bind; [|intros; apply np_ok]. unfold close_item.
  apply np_bind; [apply indent_np; auto|intros si _]. apply np_bind; [apply usub_np; lia|intros a1 A1].
  unfold usub in A1. replace (1 <=? a) with true in A1 by lia. apply Ok_inj in A1.
  destruct (indent_np a1) as [N1 N2]; [lia|]. apply np_bind; [auto|intros ei EI].
  destruct si; [|apply np_ok]. destruct ei; [|apply np_ok]. destruct (beq _ _); [apply np_ok|]. apply np_bind; [apply usub_np; auto|intros; apply np_ok].
Qed.
Lemma names_np n tag a b : a <= length t -> b <= length t -> tag <> None ->
  np (attr_name_items U d cs md providers lang settings order roots o n tag a b).
Proof.
  intros LA LB T. unfold attr_name_items. apply np_bind; [destruct (b <? a) eqn:Q; apply slice_np; lia|intros cur _].
  apply np_bind; [apply followed_np; auto|intros f _]. apply np_bind; [|intros; apply np_ok].
  destruct (used _ _ _); [apply np_ok|]. destruct tag; [apply np_ok|congruence].
Qed.
Lemma word_np limit : forall x, x <= length t -> np (get_word_start t limit x).
Proof.
  induction x as [|x IH]; intros L; cbn [get_word_start]; [apply np_ok|]. destruct (limit <? _); [|apply np_ok].
  destruct (get1_np x) as (b & ->); [lia|]. destruct (white b); [apply np_ok|apply IH; lia].
Qed.
Lemma word_np' limit : limit <= length t -> forall fuel x, np (get_word_end t fuel limit x).
Proof.
  intros L. induction fuel as [|fuel IH]; intros x; cbn [get_word_end]; [apply np_ok|]. destruct (x <? limit) eqn:Q; [|apply np_ok].
  destruct (get1_np x) as (b & ->); [lia|]. destruct (white b); [apply np_ok|apply IH].
Qed.
Lemma values_np tag attr a b : a <= o -> b <= length t -> np (attr_value_items U d cs md parts providers lang settings o tag attr a b).
Proof.
  intros LA LB. pose proof o_le. unfold attr_value_items. apply np_bind.
  - destruct ((a <? o) && (o <=? b)) eqn:Q; [|apply np_ok]. destruct (get1_np a) as (c & ->); [lia|]. apply np_ok.
  - intros q _. apply np_bind; [|intros [[r pre] aq] _; apply np_ok]. destruct q.
    + apply np_bind; [apply word_np; auto|intros ws _]. apply np_bind; [apply word_np'; destruct (_ && _); lia|intros we _].
      apply np_bind; [|intros; apply np_ok]. destruct ((a + 1 <=? o) && _) eqn:Q; [apply slice_np; lia|apply np_ok].
    + apply np_bind; [apply slice_np; auto|intros; apply np_ok].
Qed.
Lemma content_np : np (content_items d parts ents p o).
Proof.
  unfold content_items. apply np_bind; [|intros; apply np_ok]. unfold entity_items. destruct (alnum_left_spec t o) as (L1 & L2 & L3).
  assert (NL : forall i, alnum_left t o <= i < o -> exists b, nth_error t i = Some b /\ b <> 10%N /\ b <> 13%N).
  { intros i I. specialize (L2 i I). unfold alnum_at in L2. destruct (nth_error t i) as [b|]; [|discriminate]. exists b. split; auto.
    split; intros ->; discriminate L2. }
  apply np_bind; [apply usub_np, CO; auto|intros c0 C0].
  unfold usub in C0. destruct (_ <=? _) eqn:Q in C0; [|discriminate]. apply Ok_inj in C0.
  destruct (alnum_left t o) as [|k]; [apply np_ok|]. destruct (nth_error t k) as [b|] eqn:N; [|apply np_ok].
  destruct (b =? 38)%N eqn:B; [|apply np_ok]. apply np_bind; [|intros; apply np_ok]. apply usub_np.
  assert (o - k <= character p); [|lia]. apply CO; [lia|]. intros i I. destruct (Nat.eq_dec i k) as [->|]; [|apply NL; lia].
  exists b. split; auto. lia.
Qed.
Lemma slash_np : forall k, k < length t -> np (slash_before d k) /\ forall q, slash_before d k = Ok (Some q) -> 1 <= q <= k.
Proof.
  induction k as [|k IH]; intros L; cbn [slash_before]; [split; [apply np_ok|discriminate]|]. destruct (get1_np (Datatypes.S k)) as (b & ->); [auto|].
  destruct (b =? 47)%N; [split; [apply np_ok|intros q Q; apply Ok_inj, Some_inj in Q; lia]|].
  destruct (white b); [|split; [apply np_ok|discriminate]]. destruct IH as [I1 I2]; [lia|]. split; auto. intros q Q. apply I2 in Q. lia.
Qed.
(** An end tag begins at 0 or later, so what follows its '</' is at 2 or later. *)
Lemma enter_st sc sc1 : enter_tag t sc sc1 -> st sc1 = WithinTag /\ pos sc1 = pos sc /\ in_tag (st sc) = true /\
  (st sc = AfterOpeningStartTag -> nth_error t (pos sc1) = Some GT).
Proof. intros E. inversion E; subst; cbn; match goal with X : st _ = _ |- _ => rewrite X end; repeat split; auto; discriminate. Qed.
Lemma ws_step sc sc' : scan U t true cs sc = Ok sc' -> tok sc' = Whitespace ->
  (st sc' = AfterOpeningEndTag -> st sc = AfterOpeningEndTag) /\ (st sc' = AfterOpeningStartTag -> st sc = AfterOpeningStartTag) /\
  st sc' <> BeforeAttributeValue /\ (st sc' = WithinTag \/ st sc' = AfterAttributeName -> in_tag (st sc) = true /\ st sc <> AfterOpeningStartTag).
Proof.
  intros S T. apply scan_outcome in S; auto. inversion S; subst; cbn [finish st tok] in *; try discriminate.
  - repeat split; try discriminate; auto; destruct H1; discriminate.
  - repeat split; try discriminate; destruct H1; discriminate.
  - repeat split; try discriminate; auto; destruct H1; discriminate.
  - destruct (enter_st _ _ H0) as (E1 & E2 & E3 & E4).
    inversion H1; subst; cbn [finish st tok] in *; try discriminate. cbn [set_space st] in *. rewrite E1. repeat split; try discriminate; auto.
    intros Q. specialize (E4 Q). rewrite at_gt_no_ws in H2 by auto. discriminate.
  - repeat split; try discriminate; rewrite H; auto; discriminate.
  - repeat split; try discriminate; rewrite H; auto; discriminate.
Qed.
Lemma attr_name_step sc sc' : scan U t true cs sc = Ok sc' -> tok sc' = AttributeName -> in_tag (st sc) = true /\ st sc <> AfterOpeningStartTag.
Proof.
  intros S T. apply scan_outcome in S; auto. inversion S; subst; cbn [finish st tok] in *; try discriminate.
  destruct (enter_st _ _ H0) as (E1 & E2 & E3 & E4). split; auto. intros Q. specialize (E4 Q).
  inversion H1; subst; cbn [finish st tok] in *; try discriminate. eapply at_gt_no_attr; eauto.
Qed.
Lemma end_tag_name_step sc sc' : scan U t true cs sc = Ok sc' -> tok sc' = EndTag -> st sc = AfterOpeningEndTag.
Proof.
  intros S T. apply scan_outcome in S; auto. inversion S; subst; cbn [finish st tok] in *; try discriminate; auto.
  inversion H1; subst; cbn [finish st tok] in *; discriminate.
Qed.
Definition opened (sc : scanner) : Prop :=
  (st sc = AfterOpeningEndTag -> 2 <= pos sc) /\ (st sc = AfterOpeningStartTag -> 1 <= pos sc).
Lemma opened_step sc sc' : scan U t true cs sc = Ok sc' -> opened sc -> opened sc'.
Proof.
  intros S [HA HB]. apply scan_outcome in S; auto. inversion S; subst; try (split; intros Q; cbn [finish st pos tok] in *; try discriminate; auto; lia).
  - apply skip_ws_some in H0. split; intros Q; cbn [finish st pos tok] in *; try discriminate; specialize (HA H); lia.
  - apply skip_ws_some in H0. split; intros Q; cbn [finish st pos tok] in *; try discriminate; specialize (HB H); lia.
  - destruct (enter_st _ _ H0) as (E1 & E2 & E3 & E4).
    assert (X : st sc' <> AfterOpeningEndTag /\ st sc' <> AfterOpeningStartTag); [|split; tauto].
    inversion H1; subst; cbn [finish st pos tok] in *; try (split; congruence).
    unfold after_close. destruct (opt_beq _ _); [destruct (last_type sc1); split; discriminate|]. destruct (opt_beq _ _); split; discriminate.
  - split; intros Q; cbn [finish st] in Q; destruct H2 as [-> |[-> _]]; discriminate.
Qed.
Lemma opened_runs m : forall sc z, runs U t true cs sc m z -> opened sc -> opened z.
Proof.
  induction m as [|x m IH]; intros sc z R H; [inversion R; subst; auto|]. apply runs_inv in R as (S & _ & R). eapply IH; eauto. eapply opened_step; eauto.
Qed.
Lemma step_np n ps m z sc attr : In n (doc_nodes roots) -> Forall (fun x => n_start x <= length t) (n :: rev ps) ->
  runs U t true cs (scanner_new (n_start n) WithinContent) m z -> scan U t true cs z = Ok sc -> tok sc <> EOS ->
  pos sc <= length t -> tok_off sc < o <= pos sc -> tok_off sc = pos z ->
  np (complete_step U d cs md parts providers lang ents settings order roots p o n ps sc (tag_at t (map token_of m)) attr).
Proof.
  intros I F R S NE L K TZ. pose proof o_le as OL. unfold complete_step. cbn zeta. set (tag := tag_at t (map token_of m)).
  assert (DONE : forall x : res (list item), np x -> np (do i <- x; Ok (Some i, tag, attr))).
  { intros x N. apply np_bind; [auto|intros; apply np_ok]. }
  assert (TX : np (token_text t sc)) by (apply slice_np; lia).
  assert (TI : forall a e, e <= length t -> 1 <= a <= length t + 1 -> np (tag_items U d cs md providers lang settings o n ps a e)).
  { intros a e Le La. unfold tag_items. apply np_bind; [apply close_np; auto|intros; apply np_ok]. }
  assert (NT : in_tag (st z) = true -> st z <> AfterOpeningStartTag -> tok sc <> StartTagClose -> tag <> None).
  { intros. eapply tag_name_known; eauto. }
  destruct (opened_runs _ _ _ R) as [E2 E3]; [split; discriminate|].
  destruct (tok sc) eqn:TK; try (destruct (o <? pos sc); apply np_ok).
  - destruct (pos sc =? o) eqn:Q; [|apply np_ok]. apply np_bind; [apply next_np; auto|intros e E]. apply next_end_ge in E. apply DONE, np_bind; [apply TI; lia|intros; apply np_ok].
  - destruct (o <=? pos sc); [|apply np_ok]. destruct tag; apply np_ok.
  - destruct (_ && _); [apply np_ok|]. apply np_bind; [auto|intros; apply np_ok].
  - destruct (o <=? pos sc); [|apply np_ok]. apply np_bind; [apply next_np; auto|intros e E]. apply next_end_ge in E. apply DONE, close_np; auto; lia.
  - destruct (o <=? pos sc); [|apply np_ok]. assert (SZ : st z = AfterOpeningEndTag) by (eapply end_tag_name_step; eauto).
    specialize (E2 SZ). apply np_bind; [apply usub_np; lia|intros k UK]. unfold usub in UK. replace (1 <=? tok_off sc) with true in UK by lia.
    apply Ok_inj in UK. destruct (slash_np k) as [N1 N2]; [lia|]. apply np_bind; [auto|intros s SS].
    destruct s; [|apply np_ok]. apply N2 in SS. apply DONE, close_np; auto; lia.
  - destruct (pos sc =? o); [|apply np_ok]. apply np_bind; [apply next_np; auto|intros e E]. apply next_end_ge in E. apply DONE, values_np; lia.
  - destruct (_ && _); [|apply np_bind; [auto|intros; apply np_ok]]. apply DONE, names_np; try lia.
    destruct (attr_name_step _ _ S TK). apply NT; auto. discriminate.
  - destruct (_ && _); [|apply np_ok]. apply DONE, values_np; lia.
  - destruct (o <=? pos sc); [|apply np_ok]. apply DONE, content_np.
  - destruct (o <=? pos sc); [|apply np_ok]. destruct (ws_step _ _ S TK) as (X1 & X2 & X3 & X4).
    destruct (st sc) eqn:ST; try apply np_ok.
    + apply DONE, content_np.
    + apply np_bind; [apply next_np; auto|intros e E]. apply next_end_ge in E. apply DONE, TI; try lia.
    + specialize (E2 (X1 eq_refl)).
      apply np_bind; [apply usub_np; lia|intros a1 A1]. unfold usub in A1. replace (1 <=? tok_off sc) with true in A1 by lia. apply Ok_inj in A1.
      apply DONE, close_np; auto; lia.
    + destruct (X4 (or_introl eq_refl)). apply DONE, names_np; auto. apply NT; auto. discriminate.
    + destruct (X4 (or_intror eq_refl)). apply DONE, names_np; auto. apply NT; auto. discriminate.
    + congruence.
Qed.
Lemma complete_np : exists items, complete p = Ok items.
Proof.
  assert (NP : np (complete p)).
  { destruct (found_total U d cs void roots HD HP o) as (r & F). destruct r as [[n ps]|].
    2:{ rewrite (complete_none U d cs roots md parts providers lang ents settings order p F). apply np_ok. }
    pose proof o_le. destruct (found U d cs void roots HD HP o n ps F) as (P & I & L & _).
    destruct (covering U d cs l HD HT o) as (l1 & k & l2 & E & K); [lia|].
    destruct (complete_at U d cs void roots l HD HP HT md parts providers lang ents settings order p n ps l1 k l2 F E K)
      as (pre & mid & m & z & sc & X & R & M & S & NE & TK & _ & _ & ->).
    assert (KK : tok_off sc = tk_off k /\ pos sc = tk_end k) by (rewrite <- TK; auto).
    pose proof (doc_tiles _ _ _ _ HU HT) as TL. assert (B : tk_end k <= length t).
    { pose proof (tiles_bounds _ _ _ k TL) as B. rewrite E in B. specialize (B ltac:(apply in_or_app; cbn; auto)). lia. }
    unfold answer. apply np_bind; [|intros [[? ?] ?] _; apply np_ok]. rewrite <- M. apply step_np with (z := z); auto; try lia.
    - apply Forall_forall. intros x IX. destruct (slash_in U d cs void roots HD HP o n ps x F IX) as (_ & Q & _). lia.
    - apply scan_outcome in S; auto. apply outcome_progress in S as [S _]. auto. }
  pose proof complete_fuel as NF. destruct (complete p) as [items|e|]; [eauto|exfalso; apply (NP e); auto|congruence].
Qed.
End Ascii.
End Edits.

(** ** The theorems *)
(** C49: whatever completion proposes to replace contains the cursor and lies in the document.
    What a participant answers is passed on as it is. *)
Theorem C49_edits_at_cursor : forall U d cs void roots md parts providers lang ents settings order p items i r x,
  textdoc_ok d -> parse U (d_text d) cs void = Ok roots ->
  do_complete U d cs md parts providers lang ents settings order roots p = Ok items ->
  In i items -> ci_edit i = Some (r, x) -> from_participant parts i \/ at_cursor d p r.
Proof.
  intros U d cs void roots md parts providers lang ents settings order p items i r x HD HP C I E.
  destruct (parse_tokens _ _ _ _ _ (do_utf8 d HD) HP) as (l & HT).
  pose proof (edits_ok U d cs void roots l HD HP HT md parts providers lang ents settings order p items C) as F.
  rewrite Forall_forall in F. destruct (F i I) as [Q|Q]; eauto.
Qed.
Print Assumptions C49_edits_at_cursor.

(** C53: completion always ends. *)
Theorem C53_terminates : forall U d cs void roots md parts providers lang ents settings order p,
  textdoc_ok d -> parse U (d_text d) cs void = Ok roots ->
  do_complete U d cs md parts providers lang ents settings order roots p <> OutOfFuel.
Proof.
  intros U d cs void roots md parts providers lang ents settings order p HD HP.
  destruct (parse_tokens _ _ _ _ _ (do_utf8 d HD) HP) as (l & HT).
  apply (complete_fuel U d cs void roots l HD HP HT).
Qed.
Print Assumptions C53_terminates.

(** On documents of ASCII characters it gives an answer. *)
Theorem C53_ascii : forall U d cs void roots md parts providers lang ents settings order p,
  textdoc_ok d -> parse U (d_text d) cs void = Ok roots -> all_ascii (d_text d) = true -> in_line (d_text d) (offset_at d p) p ->
  exists items, do_complete U d cs md parts providers lang ents settings order roots p = Ok items.
Proof.
  intros U d cs void roots md parts providers lang ents settings order p HD HP AX CO.
  destruct (parse_tokens _ _ _ _ _ (do_utf8 d HD) HP) as (l & HT).
  apply (complete_np U d cs void roots l HD HP HT md parts providers lang ents settings order p AX CO).
Qed.
Print Assumptions C53_ascii.
(** The condition on the column holds for every position counted in UTF-16 units. *)
Lemma walk_ascii : forall x o q, all_ascii x = true -> o <= length x -> forall a, a <= o ->
  (forall i, a <= i < o -> exists b, nth_error x i = Some b /\ b <> 10%N /\ b <> 13%N) ->
  o - a <= character (pos_walk x o q) /\ (a = 0 -> character q + o <= character (pos_walk x o q)).
Proof.
  induction x as [|c x IH]; intros o q AX LO a LA NL; [cbn in *; lia|]. cbn [all_ascii forallb] in AX. apply andb_prop in AX as [AC AX].
  cbn [pos_walk]. assert (LC : length (encode1 c) = 1) by (unfold encode1; rewrite AC; reflexivity). rewrite LC.
  destruct (o <? 1) eqn:Q; [split; lia|]. destruct o as [|o]; [discriminate|]. replace (Datatypes.S o - 1) with o by lia.
  destruct a as [|a].
  - destruct (NL 0) as (b & B1 & B2 & B3); [lia|]. injection B1 as ->.
    assert (NP : next_pos q b x = mkPos (line q) (character q + 1)).
    { unfold next_pos, ends_line. replace (b =? 10)%N with false by lia. replace (b =? 13)%N with false by lia. cbn [andb orb].
      unfold utf16_width. replace (b <? 65536)%N with true by lia. reflexivity. }
    rewrite NP. destruct (IH o (mkPos (line q) (character q + 1)) AX ltac:(cbn in LO; lia) 0 ltac:(lia)) as [I1 I2].
    { intros i I. apply (NL (Datatypes.S i)). lia. }
    specialize (I2 eq_refl). cbn [character] in I2. split; lia.
  - destruct (IH o (next_pos q c x) AX ltac:(cbn in LO; lia) a ltac:(lia)) as [I1 _].
    { intros i I. apply (NL (Datatypes.S i)). lia. }
    split; [lia|discriminate].
Qed.
Lemma ascii_decode x : all_ascii x = true -> decode x = x.
Proof.
  intros A. assert (E : encode x = x).
  { induction x as [|c x IH]; auto. cbn [all_ascii forallb] in A. apply andb_prop in A as [A1 A2]. cbn [encode flat_map].
    unfold encode in IH. rewrite IH by auto. unfold encode1. rewrite A1. reflexivity. }
  rewrite <- E at 1. apply decode_encode. apply forallb_forall. intros c C. unfold all_ascii in A. rewrite forallb_forall in A.
  specialize (A c C). unfold scalar. lia.
Qed.
Lemma C53_columns : forall x o, all_ascii x = true -> o <= length x -> in_line x o (position_at (utf16_doc x) o).
Proof.
  intros x o AX LO a LA NL. cbn [utf16_doc position_at]. rewrite ascii_decode by auto. eapply walk_ascii; eauto.
Qed.

(** C50: in the name of a start tag, the tags of the providers in use, each replacing the whole name. *)
Theorem C50_tag_names : forall U d cs void roots l md parts providers lang ents settings order p k,
  textdoc_ok d -> parse U (d_text d) cs void = Ok roots -> doc_tokens U (d_text d) cs = Ok l ->
  In k l -> tk_type k = StartTag -> tk_off k < offset_at d p <= tk_end k ->
  exists items, do_complete U d cs md parts providers lang ents settings order roots p = Ok items /\
  forall i, In i items <-> exists q td, in_use providers lang settings q /\ In td (pv_tags q) /\
    i = tag_proposal (range_at d (tk_off k) (tk_end k)) td.
Proof.
  intros U d cs void roots l md parts providers lang ents settings order p k HD HP HT Ik T K. apply in_split in Ik as (l1 & l2 & E).
  eexists. split; [apply (tag_names U d cs void roots l HD HP HT md parts providers lang ents settings order p l1 k l2 E T K)|].
  intros i. rewrite open_items. unfold replace_range. rewrite Nat.min_l by lia. reflexivity.
Qed.
Print Assumptions C50_tag_names.

(** C51: in an attribute value, or right behind the '=', the values of the attribute named before
    it on the tag of the element, after the answers of the participants. A value not written in quotes
    is put in quotes. *)
Theorem C51_values : forall U d cs void roots l1 k l2 md parts providers lang ents settings order p items,
  textdoc_ok d -> parse U (d_text d) cs void = Ok roots -> doc_tokens U (d_text d) cs = Ok (l1 ++ k :: l2) ->
  tk_type k = AttributeValue \/ tk_type k = DelimiterAssign -> tk_off k < offset_at d p <= tk_end k ->
  do_complete U d cs md parts providers lang ents settings order roots p = Ok items ->
  exists n x ka from values, start_tag_at roots n (offset_at d p) /\ n_tag n = Some x /\ value_name l1 ka /\
    items = from ++ values /\ Forall (from_participant parts) from /\
    let quoted := tk_type k = AttributeValue /\ exists c, nth_error (d_text d) (tk_off k) = Some c /\ (c = 34%N \/ c = 39%N) in
    (forall y, In y (map ci_label values) <-> exists q v, in_use providers lang settings q /\
       In v (pv_values q x (sub (d_text d) (tk_off ka) (tk_end ka))) /\ y = v_name v) /\
    (forall i, In i values -> exists r, (quoted -> ci_edit i = Some (r, ci_label i)) /\
       (~ quoted -> ci_edit i = Some (r, bs """" ++ ci_label i ++ bs """") /\
                    (tk_type k = AttributeValue -> r = range_at d (tk_off k) (tk_end k)))).
Proof.
  intros U d cs void roots l1 k l2 md parts providers lang ents settings order p items HD HP HT TY K C.
  destruct (values_at U d cs void roots _ HD HP HT md parts providers lang ents settings order p l1 k l2 items eq_refl K TY C)
    as (n & x & ka & a & b & SA & TX & V & AV & AD & H).
  apply value_labels in H as (r & dq & from & -> & FP & QQ & RR). cbn zeta iota in *.
  exists n, x, ka, from, (flat_map (fun q => map (value_item md r dq) (pv_values q x (tk_text (d_text d) ka))) (used providers lang settings)).
  repeat (split; [assumption||reflexivity|]).
  assert (QE : dq = false <-> tk_type k = AttributeValue /\ exists c, nth_error (d_text d) (tk_off k) = Some c /\ (c = 34%N \/ c = 39%N)).
  { rewrite QQ. destruct TY as [TY|TY].
    - destruct (AV TY) as [-> ->]. split; [intros [_ Q]; auto|intros [_ Q]; split; auto].
    - destruct (AD TY) as [-> _]. split; [lia|intros [Q _]; congruence]. }
  split.
  - intros y. rewrite in_map_iff. split.
    + intros (i & <- & I). apply in_flat_map in I as (q & Q & I). apply in_map_iff in I as (v & <- & I). exists q, v. rewrite <- used_in. auto.
    + intros (q & v & Q & I & ->). exists (value_item md r dq v). split; [reflexivity|]. apply in_flat_map. exists q. rewrite used_in.
      split; auto. apply in_map. auto.
  - intros i I. apply in_flat_map in I as (q & Q & I). apply in_map_iff in I as (v & <- & I). exists r. split.
    + intros W. apply QE in W. subst dq. reflexivity.
    + intros W. destruct dq; [|exfalso; tauto]. split; [reflexivity|]. intros T. destruct (AV T) as [-> ->]. rewrite RR by auto.
      unfold replace_range. rewrite Nat.min_l by lia. reflexivity.
  - exact ents.
  - exact order.
Qed.
Print Assumptions C51_values.

(** What these proposals write, and where; what the participants are asked. Between quotes, the word around the
    cursor is replaced by the value, otherwise the whole value by the value in quotes. *)
Theorem C51_value_edits : forall U d cs void roots l1 k l2 md parts providers lang ents settings order p items,
  textdoc_ok d -> parse U (d_text d) cs void = Ok roots -> doc_tokens U (d_text d) cs = Ok (l1 ++ k :: l2) ->
  tk_type k = AttributeValue \/ tk_type k = DelimiterAssign -> tk_off k < offset_at d p <= tk_end k ->
  do_complete U d cs md parts providers lang ents settings order roots p = Ok items ->
  let t := d_text d in let o := offset_at d p in
  exists n x ka from values wa we a e prefix, start_tag_at roots n o /\ n_tag n = Some x /\ value_name l1 ka /\
    items = from ++ values /\
    (tk_type k = AttributeValue -> wa = tk_off k /\ we = tk_end k) /\ (tk_type k = DelimiterAssign -> wa = o /\ value_from t o we) /\
    let quoted := tk_type k = AttributeValue /\ exists c, nth_error t (tk_off k) = Some c /\ (c = 34%N \/ c = 39%N) in
    let name := sub t (tk_off ka) (tk_end ka) in
    (quoted -> exists hi, (nth_error t (tk_end k - 1) = nth_error t (tk_off k) -> hi = tk_end k - 1) /\
       (nth_error t (tk_end k - 1) <> nth_error t (tk_off k) -> hi = tk_end k) /\ word_around t (tk_off k + 1) hi o a e /\
       (o < hi -> prefix = sub t (tk_off k + 1) o) /\ (hi <= o -> prefix = [])) /\
    (~ quoted -> a = wa /\ e = we /\ prefix = sub t wa o) /\
    from = flat_map (fun q => cp_value q (if cs then x else lower U x) (if cs then name else lower U name) prefix (range_at d wa we)) parts /\
    (forall y, In y (map ci_label values) <-> exists q v, in_use providers lang settings q /\ In v (pv_values q x name) /\ y = v_name v) /\
    forall i, In i values -> exists q v, in_use providers lang settings q /\ In v (pv_values q x name) /\ ci_label i = v_name v /\
      (quoted -> ci_edit i = Some (range_at d a e, v_name v)) /\
      (~ quoted -> ci_edit i = Some (range_at d a e, bs """" ++ v_name v ++ bs """")) /\
      ci_format i = Some FPlain /\ ci_kind i = Some KUnit /\ ci_command i = false /\
      ci_doc i = as_doc (generate_documentation (v_desc v) (v_refs v) true true md).
Proof.
  intros U d cs void roots l1 k l2 md parts providers lang ents settings order p items HD HP HT TY K C t o.
  destruct (values_at U d cs void roots _ HD HP HT md parts providers lang ents settings order p l1 k l2 items eq_refl K TY C)
    as (n & x & ka & wa & we & SA & TX & V & AV & AD & H). fold t o in K, SA, AD, H.
  assert (LW : we <= length t).
  { destruct TY as [TY|TY].
    - destruct (AV TY) as [_ ->]. pose proof (doc_tiles U t cs _ (do_utf8 d HD) HT) as TL. apply (tiles_bounds _ _ _ k) in TL; [lia|apply in_elt].
    - destruct (AD TY) as (_ & _ & [Q|[(q & Q)|[-> _]]]); [destruct Q; tauto|tauto|]. apply (do_offset d HD). }
  destruct (value_shape U d cs md parts providers lang ents settings order p _ _ wa we items LW H) as (a & e & pre & dq & IT & DQ & Q1 & Q2). fold t o in Q1, Q2, DQ. cbn iota in IT.
  assert (QE : dq = false <-> tk_type k = AttributeValue /\ exists c, nth_error t (tk_off k) = Some c /\ (c = 34%N \/ c = 39%N)).
  { rewrite DQ. destruct TY as [TY|TY].
    - destruct (AV TY) as [-> ->]. split; [intros [_ Q]; auto|intros [_ Q]; split; auto].
    - destruct (AD TY) as [-> _]. split; [lia|intros [Q _]; congruence]. }
  assert (WO : wa <= o) by (destruct TY as [TY|TY]; [destruct (AV TY); lia|destruct (AD TY); lia]).
  exists n, x, ka. do 2 eexists. exists wa, we, a, e, pre. split; [exact SA|]. split; [exact TX|]. split; [exact V|]. split; [exact IT|].
  split; [exact AV|]. split; [intros T; destruct (AD T) as (? & ? & ?); auto|]. cbn zeta.
  split; [|split; [|split; [|split]]].
  - intros W. assert (W' := W). apply QE in W'. destruct W as [TY' _]. destruct (AV TY') as [-> ->]. exact (Q1 W').
  - intros W. destruct dq; [|exfalso; tauto]. destruct (Q2 eq_refl) as (-> & -> & ->). split; [lia|auto].
  - unfold replace_range. fold o. rewrite Nat.min_l by lia. reflexivity.
  - intros y. rewrite in_map_iff. split.
    + intros (i & <- & I). apply in_flat_map in I as (q & Q & I). apply in_map_iff in I as (v & <- & I). exists q, v. rewrite <- used_in. auto.
    + intros (q & v & Q & I & ->). eexists. split; [|apply in_flat_map; exists q; split; [rewrite used_in; exact Q|apply in_map; exact I]]. reflexivity.
  - intros i I. apply in_flat_map in I as (q & Q & I). apply in_map_iff in I as (v & <- & I). exists q, v. rewrite <- used_in. repeat (split; [assumption||reflexivity|]).
    split; [|split; [|repeat split]].
    + intros W. apply QE in W. subst dq. reflexivity.
    + intros W. destruct dq; [|exfalso; tauto]. reflexivity.
Qed.
Print Assumptions C51_value_edits.

(** C52: behind '</' one end tag, for the innermost named element still open; the '>' is added unless
    one follows. When nothing is open, every tag of the providers in use. *)
Theorem C52_end_tag : forall U d cs void roots l md parts providers lang ents settings order p k items,
  textdoc_ok d -> parse U (d_text d) cs void = Ok roots -> doc_tokens U (d_text d) cs = Ok l ->
  In k l -> tk_type k = EndTagOpen -> tk_end k = offset_at d p -> finished l (offset_at d p) ->
  do_complete U d cs md parts providers lang ents settings order roots p = Ok items ->
  (forall y x, innermost_named roots (tk_off k) y x -> exists i f e, items = [i] /\ ci_label i = bs "/" ++ x /\
     (e = offset_at d p \/ name_text U (d_text d) (offset_at d p) e) /\ (f = true <-> next_is_gt (d_text d) e) /\
     let close := if f : bool then [] else bs ">" in
     (ci_edit i = Some (range_at d (tk_off k + 1) e, bs "/" ++ x ++ close) \/
      exists a si, a <= tk_off k /\ ci_edit i = Some (range_at d a (offset_at d p), si ++ bs "</" ++ x ++ close))) /\
  ((forall y x, ~ innermost_named roots (tk_off k) y x) -> (exists m, In m (doc_nodes roots) /\ n_start m < offset_at d p) ->
     forall x, In x (map ci_label items) <->
       exists q td, in_use providers lang settings q /\ In td (pv_tags q) /\ x = bs "/" ++ t_name td).
Proof.
  intros U d cs void roots l md parts providers lang ents settings order p k items HD HP HT K KT KE FI C.
  assert (NF : (exists m, In m (doc_nodes roots) /\ n_start m < offset_at d p) ->
               exists n ps, find_node_before roots (offset_at d p) = Ok (Some (n, ps))).
  { intros (m & M & L). destruct (found_total U d cs void roots HD HP (offset_at d p)) as ([[n ps]|] & F); [eauto|].
    exfalso. apply (found_none U d cs void roots HD HP _ F m) in M. lia. }
  split.
  - intros y x IN. destruct NF as (n & ps & F).
    { exists y. split; [apply IN|]. destruct IN as (Y & _ & (s & S1 & S2 & _) & _). destruct (slash_byte U d cs l HD HT k K KT) as [KL _].
      destruct (span U d cs void roots HD HP y Y) as (_ & _ & S3). rewrite S1 in S3. destruct (n_ets y); lia. }
    apply (proj2 (named_find U d cs void roots l HD HP HT ents order p k n ps y x K KT KE FI F)) in IN. destruct IN as [FY TY].
    destruct (end_tag_step U d cs void roots l HD HP HT md parts providers lang ents settings order p k n ps items K KT KE F C) as (e & EE & CL).
    destruct (close_items_named U d cs l HD HT md providers lang ents settings order p k n ps y x e items K KT KE FY TY CL) as (i & f & A1 & A2 & A3 & A4).
    exists i, f, e. auto.
  - intros NN EX. destruct (NF EX) as (n & ps & F).
    destruct (end_tag_step U d cs void roots l HD HP HT md parts providers lang ents settings order p k n ps items K KT KE F C) as (e & EE & CL).
    eapply close_items_none; [|exact CL]. destruct (find (Completion.open_at (offset_at d p)) (n :: rev ps)) as [y|] eqn:FY; auto. exfalso.
    destruct (find_some _ _ FY) as [_ OA]. destruct (n_tag y) as [x|] eqn:TY; [|unfold Completion.open_at in OA; rewrite TY in OA; discriminate].
    apply (NN y x). apply (named_find U d cs void roots l HD HP HT ents order p k n ps y x K KT KE FI F). auto.
Qed.
Print Assumptions C52_end_tag.

(** ** Examples *)
Definition edits_provider : provider := html_provider demo_unicode (bs "demo")
  (mkData (Some [mkTag (bs "p") None [] None None;
                 mkTag (bs "input") None [mkAttr (bs "type") None (Some (bs "t")) None None] None None])
          None (Some [(bs "t", [mkValue (bs "text") None None; mkValue (bs "button") None None])])) false.
Definition edits_run (s : str) (p : position) : res (list (str * option (range * str))) :=
  do roots <- parse demo_unicode s false html5_void;
  do l <- do_complete demo_unicode (utf16_doc s) false true [] [edits_provider] (bs "html") entities None (fun m => m) roots p;
  Ok (map (fun i => (ci_label i, ci_edit i)) l).
Definition edits_at (s : str) (o : nat) := edits_run s (position_at (utf16_doc s) o).
Definition rng0 (a b : nat) : range := mkRange (mkPos 0 a) (mkPos 0 b).
Example C50_demo : edits_at (bs "<div><inp></div>") 7 =
  Ok [(bs "p", Some (rng0 6 9, bs "p")); (bs "input", Some (rng0 6 9, bs "input"))].
Proof. vm_compute. reflexivity. Qed.
Example C51_demo :
  edits_at (bs "<input type=""te x"">") 15 = Ok [(bs "text", Some (rng0 13 15, bs "text")); (bs "button", Some (rng0 13 15, bs "button"))] /\
  edits_at (bs "<input type=te>") 13 = Ok [(bs "text", Some (rng0 12 14, bs """text""")); (bs "button", Some (rng0 12 14, bs """button"""))] /\
  edits_at (bs "<input type=>") 12 = Ok [(bs "text", Some (rng0 12 12, bs """text""")); (bs "button", Some (rng0 12 12, bs """button"""))].
Proof. vm_compute. repeat split. Qed.
Example C52_demo :
  edits_at (bs "<div><p>x</") 11 = Ok [(bs "/p", Some (rng0 10 11, bs "/p>"))] /\
  edits_at (bs "<div><p>x</  >") 11 = Ok [(bs "/p", Some (rng0 10 11, bs "/p"))] /\
  edits_at (bs "<div><p>x</b >") 11 = Ok [(bs "/p", Some (rng0 10 12, bs "/p"))] /\
  edits_at (bs "<div></div></") 13 = Ok [(bs "/p", None); (bs "/input", None)] /\
  edits_at (bs "<div>" ++ [10%N] ++ bs "  x" ++ [10%N] ++ bs "  </") 14 =
    Ok [(bs "/div", Some (mkRange (mkPos 2 0) (mkPos 2 4), bs "</div>"))].
Proof. vm_compute. repeat split. Qed.
(** The hypotheses of the theorems hold in the first of these. *)
Example edits_hypotheses :
  (let s := bs "<div><inp></div>" in textdoc_ok (utf16_doc s) /\
   (do l <- doc_tokens demo_unicode s false; Ok (existsb (fun k => (tk_off k <? 7) && (7 <=? tk_end k) && token_eqb (tk_type k) StartTag) l)) = Ok true) /\
  (let s := bs "<input type=""te x"">" in textdoc_ok (utf16_doc s) /\
   (do l <- doc_tokens demo_unicode s false; Ok (existsb (fun k => (tk_off k <? 15) && (15 <=? tk_end k) && token_eqb (tk_type k) AttributeValue) l)) = Ok true) /\
  (let s := bs "<div><p>x</" in textdoc_ok (utf16_doc s) /\
   (do l <- doc_tokens demo_unicode s false; Ok (existsb (fun k => (tk_end k =? 11) && token_eqb (tk_type k) EndTagOpen) l &&
      forallb (fun k => negb (tk_off k <? 11) || (tk_off k <? tk_end k)) l)) = Ok true).
Proof.
  split; [|split]; (split; [apply C27_contract; match goal with |- context [bs ?x] => exists (decode (bs x)) end; vm_compute; auto|vm_compute; reflexivity]).
Qed.

(** ** Findings *)
(** Behind the closing quote the values are still proposed, and they replace that quote. *)
Theorem C51_quote_refuted : edits_at (bs "<input type=""te"">") 16 =
  Ok [(bs "text", Some (rng0 13 16, bs "text")); (bs "button", Some (rng0 13 16, bs "button"))].
Proof. vm_compute. reflexivity. Qed.
(** White space after the '=': attribute names are proposed where the value is to be written. *)
Theorem C51_space_refuted : (do l <- edits_at (bs "<input type= >") 13; Ok (map fst l)) = Ok [bs "data-"].
Proof. vm_compute. reflexivity. Qed.
(** Values with characters other than ASCII end the service. *)
Theorem C51_panic_refuted :
  edits_at (bs "<input type=""" ++ [195; 169]%N ++ bs """>") 15 = Panic PSlice /\
  edits_at (bs "<input type=" ++ [195; 169]%N ++ bs ">") 14 = Panic PSlice.
Proof. vm_compute. split; reflexivity. Qed.
(** The text before '</' on its line is replaced when it holds a character that is not ASCII. *)
Theorem C52_indent_refuted : edits_at (bs "<div>" ++ [10%N; 195%N; 169%N] ++ bs "</") 10 =
  Ok [(bs "/div", Some (mkRange (mkPos 1 0) (mkPos 1 3), bs "</div>"))].
Proof. vm_compute. reflexivity. Qed.
(** In the name of an end tag on its own line, the part after the cursor is kept: this gives '</divi>'. *)
Theorem C52_rest_refuted : edits_at (bs "<div>" ++ [10%N] ++ bs "  </di>") 11 =
  Ok [(bs "/div", Some (mkRange (mkPos 1 0) (mkPos 1 5), bs "</div"))].
Proof. vm_compute. reflexivity. Qed.
(** A column past the end of the last line makes the search for a character reference underflow. *)
Theorem C53_panic_refuted : edits_run (bs "<p>abc") (mkPos 7 1) = Panic PUnderflow.
Proof. vm_compute. reflexivity. Qed.
