(** * Requests with an outdated tree are answered (C59) *)
From Verif Require Import SelectionRange PropTags PropSelection Base BaseFacts Stream Scanner ScannerFacts ScanStep ScanProps ScanShape ScanResume ScanPanic Tree
  Parser ParseSpec ParseInv ParseOrder PropParse TreeFacts PropTree ParseEnd PropEnd TextDoc PropDoc ScanComplete
  ScanLocal SelAttr TokenLoop NodeScan DataManager PropData BuiltinData Entities TagServices Hover PropHover PropHoverDoc Completion PropTagComplete
  PropComplete PropEdits FormatFacts PropAnswers.
From Coq Require Import ZifyBool ZifyNat ZifyN Sorted Permutation.

(** The caller of a service hands over the text and a tree. Nothing but the caller's care makes
    the tree that of the text: after an edit an editor may well ask with the tree of the text
    before. Here [roots] is any forest, or the tree of any other text. *)

(** ** Texts *)
(** The word at the cursor is ASCII: from any other character there is white space to the cursor. *)
Definition quiet (t : str) (o : nat) : Prop := forall i, far t i -> one_word t i o -> one_word t o i -> False.
Lemma ascii_byte t i c : all_ascii t = true -> nth_error t i = Some c -> (c < 128)%N.
Proof. intros A N. unfold all_ascii in A. rewrite forallb_forall in A. apply nth_error_In in N. specialize (A c N). lia. Qed.
Lemma ascii_quiet t o : all_ascii t = true -> quiet t o.
Proof. intros A i (c & C & L) _ _. pose proof (ascii_byte t i c A C). lia. Qed.
Lemma ascii_bd t i : all_ascii t = true -> i <= length t -> Bd t i.
Proof.
  intros A L. pose proof (ascii_utf8 t A) as HU. destruct (nth_error t i) as [c|] eqn:N.
  - eapply Bd_at_ascii; eauto. eapply ascii_byte; eauto.
  - apply nth_error_None in N. replace i with (length t) by lia. apply Bd_len. auto.
Qed.
Lemma ascii_clean t : all_ascii t = true -> clean t.
Proof.
  intros A. split.
  - intros c I. rewrite ascii_dec in I by auto. unfold all_ascii in A. rewrite forallb_forall in A. specialize (A c I).
    unfold bad_char, is_uspace, is_c1. lia.
  - intros t' c E Sc. destruct (N.lt_ge_cases c 128) as [|L]; auto. exfalso. destruct (scan_prefix_ne c Sc L) as (y & Y1 & Y2 & Y3).
    assert (I : In y t).
    { rewrite E. apply in_or_app. right. rewrite <- Y1. destruct (encode1 c) as [|z w] using rev_ind; [cbn in Y3; lia|]. rewrite last_last. apply in_elt. }
    unfold all_ascii in A. rewrite forallb_forall in A. specialize (A y I). unfold is_cont in Y2. lia.
Qed.
Lemma encode_low c : forall l, forallb scalar l = true -> In c (encode l) -> (c < 128)%N -> In c l.
Proof.
  induction l as [|x l IH]; intros S I L; [destruct I|]. cbn [forallb] in S. apply andb_true_iff in S as [S1 S2]. cbn [encode flat_map] in I.
  apply in_app_or in I as [I|I]; [|right; apply IH; auto]. destruct (N.lt_ge_cases x 128) as [LX|LX].
  - left. unfold encode1 in I. replace (x <? 128)%N with true in I by lia. destruct I as [->|[]]. auto.
  - exfalso. unfold encode1 in I. replace (x <? 128)%N with false in I by lia. destruct (x <? 2048)%N; [|destruct (x <? 65536)%N]; cbn [In] in I; lia.
Qed.
(** An attribute value that begins with a character that is not ASCII has no white space. *)
Lemma value_word t a b : value_text t a b -> far t a -> b <= length t -> one_word t a b.
Proof.
  intros V (c & C & L) LB. inversion V as [m Lm (l & _ & Sl & El & Pl & _) H|q body Q E _|q body Q E _ _].
  - assert (W : forall i x, a <= i < m -> m <= length t -> nth_error t i = Some x -> (x < 128)%N -> is_uspace x = false).
    { intros i x I LM N LX. assert (J : In x (encode l)).
      { rewrite <- El. replace i with (a + (i - a)) in N by lia. rewrite <- sub_nth_error with (b := m) in N by lia. eapply nth_error_In; eauto. }
      apply encode_low in J; auto. rewrite forallb_forall in Pl. specialize (Pl x J). unfold val_char in Pl. destruct (is_uspace x); auto. }
    intros i x I N LX. destruct H as [(-> & _)|(-> & Q)]; [apply (W i); auto; lia|].
    destruct (Nat.eq_dec i m) as [->|]; [|apply (W i); auto; lia]. rewrite N in Q. destruct Q as [Q|Q]; apply Some_inj in Q; subst x; reflexivity.
  - exfalso. assert (N : nth_error (sub t a b) 0 = Some q) by (rewrite E; auto).
    destruct (Nat.lt_ge_cases a b) as [LA|LA]; [|unfold sub in N; replace (b - a) with 0 in N by lia; discriminate].
    rewrite sub_nth_error, Nat.add_0_r in N by lia. rewrite N in C. apply Some_inj in C. subst c. destruct Q; subst q; unfold SQUOTE, DQUOTE in L; lia.
  - exfalso. assert (N : nth_error (sub t a b) 0 = Some q) by (rewrite E; auto).
    destruct (Nat.lt_ge_cases a b) as [LA|LA]; [|unfold sub in N; replace (b - a) with 0 in N by lia; discriminate].
    rewrite sub_nth_error, Nat.add_0_r in N by lia. rewrite N in C. apply Some_inj in C. subst c. destruct Q; subst q; unfold SQUOTE, DQUOTE in L; lia.
Qed.

(** ** Completion *)
Lemma runs_snoc U t e cs m : forall sc z z', runs U t e cs sc m z -> scan U t e cs z = Ok z' -> tok z' <> EOS -> runs U t e cs sc (m ++ [z']) z'.
Proof.
  induction m as [|x m IH]; intros sc z z' R S NE; [inversion R; subst; repeat constructor; auto|].
  apply runs_inv in R as (S1 & N1 & R). cbn [app]. constructor; eauto.
Qed.
Section Complete.
Variables (U : unicode) (d : textdoc) (cs : bool) (roots : list node).
Hypothesis HD : textdoc_ok d.
Notation t := (d_text d).
Hypothesis HC : clean t.
Let HU : Utf8 t := do_utf8 d HD.
Variables (md : bool) (parts : list completion_participant) (providers : list provider) (lang : str)
  (ents : list (str * list N)) (settings : option completion_settings) (order : list (str * str) -> list (str * str)).
Variable p : position.
Let o := offset_at d p.
Hypothesis CO : word_column t o p.
Hypothesis QU : quiet t o.
Notation loop := (complete_loop U d cs md parts providers lang ents settings order roots p o).
Lemma loop_answers n ps : Forall (fun x => Bd t (n_start x)) (n :: rev ps) -> forall fuel m z sc attr,
  runs U t true cs (scanner_new (n_start n) WithinContent) m z -> scan U t true cs z = Ok sc -> Good t z -> pos z <= length t ->
  measure t z < fuel ->
  exists items, loop n ps fuel sc (tag_at t (map token_of m)) attr = Ok items.
Proof.
  intros F. induction fuel as [|fuel IH]; intros m z sc attr R S G LZ M; [lia|]. cbn [complete_loop].
  destruct (token_eqb (tok sc) EOS) eqn:NE; cbn [negb andb]; [eauto|]. apply token_eqb_neq in NE. destruct (tok_off sc <? o) eqn:LO; [|eauto].
  assert (G' : Good t sc).
  { destruct (clean_step U t cs HU HC true z G) as (sc' & S' & G'). rewrite S' in S. apply Ok_inj in S. subst sc'. auto. }
  destruct (clean_step U t cs HU HC true sc G') as (f & SF & GF).
  pose proof (scan_outcome _ _ _ _ HU _ _ S) as O. apply outcome_progress in O as (Q1 & Q2).
  assert (LS : pos sc <= length t) by (destruct Q2 as [(? & _)|[(_ & _ & ?)|(_ & _ & ? & _)]]; [congruence|lia|lia]).
  assert (TB : tok_bd t (token_of sc)) by (eapply (emit_tok_bd U d cs HD z); eauto).
  pose proof (scan_measure U t true cs HU _ _ S NE) as MS.
  destruct (Nat.lt_ge_cases (pos sc) o) as [LP|LP].
  - rewrite (skip_step U d cs roots md parts providers lang ents settings order p n ps sc) by auto. cbn [bind]. rewrite SF. cbn [bind].
    replace (tag_upd t (tag_at t (map token_of m)) (token_of sc)) with (tag_at t (map token_of (m ++ [sc]))).
    2:{ unfold tag_at. rewrite map_app, fold_left_app. reflexivity. }
    apply (IH _ sc); auto; try lia. eapply runs_snoc; eauto.
  - assert (NP : np (complete_step U d cs md parts providers lang ents settings order roots p o n ps sc (tag_at t (map token_of m)) attr)).
    { eapply (step_answers U d cs roots HD md parts providers lang ents settings order p n ps m z sc attr f); eauto; try (fold o; lia).
      intros (V1 & V2 & V3). fold o in V2. cbn [token_of tk_type tk_off tk_end] in *. destruct V3 as [V3|(_ & i & I & V3 & V4 & V5)].
      - pose proof (scan_shape U t true cs HU _ _ S) as SH. unfold token_shape in SH. cbv zeta in SH. cbn [token_of tk_type tk_off tk_end] in SH. rewrite V1 in SH.
        pose proof (value_word _ _ _ SH V3 LS) as W. apply (QU (tok_off sc)); auto.
        + intros i c I. apply W. lia.
        + intros i c I. lia.
      - apply (QU i); auto. }
    pose proof (step_fuel U d cs roots HD md parts providers lang ents settings order p n ps sc (tag_at t (map token_of m)) attr LS) as NF.
    destruct (complete_step _ _ _ _ _ _ _ _ _ _ _ _ _ _ _ _ _ _) as [[[r tag'] attr']|e|]; [|exfalso; apply (NP e); auto|congruence].
    cbn [bind]. destruct r; [eauto|]. rewrite SF. cbn [bind]. destruct fuel as [|fuel]; [lia|]. cbn [complete_loop].
    destruct (scan_progress U t true cs HU _ _ SF) as [E _]. replace (tok_off f <? o) with false by lia. rewrite andb_false_r. eauto.
Qed.
End Complete.

(** ** The other services *)
Lemma scan_to_answers U t cs ty : Utf8 t -> clean t -> forall fuel sc, Good t sc -> measure t sc < fuel -> exists r, scan_to U t cs fuel ty sc = Ok r.
Proof.
  intros HU HC. induction fuel as [|fuel IH]; intros sc G M; [lia|]. cbn [scan_to]. destruct (clean_scan U t cs HU HC sc G) as (sc' & S & G').
  rewrite S. cbn [bind]. destruct (token_eqb (tok sc') EOS) eqn:NE; [eauto|]. apply token_eqb_neq in NE. destruct (token_eqb _ _); [eauto|].
  apply IH; auto. pose proof (scan_measure U t false cs HU _ _ S NE). lia.
Qed.
Lemma name_range_answers U d cs ty a : textdoc_ok d -> clean (d_text d) -> exists r, get_tag_name_range U d cs ty a = Ok r.
Proof.
  intros HD HC. unfold get_tag_name_range.
  destruct (scan_to_answers U (d_text d) cs ty (do_utf8 d HD) HC (scan_fuel (d_text d)) (scanner_new a WithinContent)) as (r & ->).
  - apply (new_good d).
  - apply start_measure.
  - cbn [bind]. eauto.
Qed.

Lemma firstn_in {A} (x : A) : forall k l, In x (firstn k l) -> In x l.
Proof. intros k l I. rewrite <- (firstn_skipn k l). apply in_or_app. auto. Qed.

(** ** The theorems *)
(** C59: tag names. Whatever the tree, these always answer. *)
Theorem C59_tags : forall d roots p name,
  (exists r, find_linked_editing_ranges d p roots = Ok r) /\
  (exists r, find_matching_tag_position d p roots = Ok r) /\
  (exists r, do_rename d p name roots = Ok r).
Proof.
  intros d roots p name. unfold find_linked_editing_ranges, find_matching_tag_position, do_rename.
  destruct (find_at_total roots (offset_at d p)) as (r & -> & _). cbn [bind]. destruct r as [[n ps]|]; [|eauto 6]. split; [|split].
  - destruct (n_ets n); [|eauto]. destruct (_ || _); eauto.
  - destruct (n_tag n) as [x|]; [|eauto]. destruct (n_ets n) as [e|]; [|eauto]. unfold in_start_name, in_end_name, between, usub.
    destruct (_ && _) eqn:Q.
    + replace (1 <=? offset_at d p) with true by lia. cbn [bind]. replace (n_start n <=? offset_at d p - 1) with true by lia. cbn [bind]. eauto.
    + clear Q. destruct (_ && _) eqn:Q2; [|eauto]. replace (2 <=? offset_at d p) with true by lia. cbn [bind].
      replace (e <=? offset_at d p - 2) with true by lia. cbn [bind]. eauto.
  - destruct (n_tag n); [|eauto]. destruct (negb _); eauto.
Qed.
Print Assumptions C59_tags.
(** Highlights, hover, closing tags and quotes: on a text that can be scanned, whatever the tree. *)
Theorem C59_rescan : forall U d cs roots, textdoc_ok d -> clean (d_text d) ->
  (forall p, exists r, find_document_highlights U d p roots cs = Ok r) /\
  (forall md parts providers lang ents opts p, word_column (d_text d) (offset_at d p) p ->
     exists r, do_hover U d cs md parts providers lang ents opts p roots = Ok r) /\
  (forall providers lang p, exists r, do_tag_complete U d cs providers lang roots p = Ok r) /\
  (forall settings p, exists r, do_quote_complete U d cs settings roots p = Ok r).
Proof.
  intros U d cs roots HD HC. split; [|split; [|split]].
  - intros p. unfold find_document_highlights. destruct (find_at_total roots (offset_at d p)) as (r & -> & _). cbn [bind].
    destruct r as [[n ps]|]; [|eauto]. destruct (n_tag n); [|eauto].
    destruct (name_range_answers U d cs StartTag (n_start n) HD HC) as (y & ->). cbn [bind]. unfold is_self_closing, unwrap.
    destruct (n_ets n) as [e|]; cbn [bind].
    + destruct (name_range_answers U d cs EndTag e HD HC) as (x & ->). cbn [bind]. destruct (_ || _); eauto.
    + destruct (_ || _); eauto.
  - intros md parts providers lang ents opts p CO. apply hover_answers; auto. intros a L A. apply CO; auto. intros i I.
    destruct (A i I) as (c & C1 & C2). eauto.
  - intros providers lang p. apply tag_complete_answers; auto.
  - intros settings p. apply quote_complete_answers; auto.
Qed.
Print Assumptions C59_rescan.
(** Completion: on a text that can be scanned, when the elements of the tree begin between two
    characters of the text and the word at the cursor is ASCII. *)
Theorem C59_completion : forall U d cs roots md parts providers lang ents settings order p,
  textdoc_ok d -> clean (d_text d) -> word_column (d_text d) (offset_at d p) p -> quiet (d_text d) (offset_at d p) ->
  (forall n, In n (doc_nodes roots) -> n_start n < offset_at d p -> is_boundary (d_text d) (n_start n) = true) ->
  exists items, do_complete U d cs md parts providers lang ents settings order roots p = Ok items.
Proof.
  intros U d cs roots md parts providers lang ents settings order p HD HC CO QU BD. unfold do_complete.
  destruct (do_offset d HD p) as [LO _].
  destruct (find_before_total roots (offset_at d p)) as (r & -> & F). cbn [bind]. destruct r as [[n ps]|]; [|eauto]. specialize (F n ps eq_refl).
  assert (FB : Forall (fun x => Bd (d_text d) (n_start x)) (n :: rev ps)).
  { apply Forall_forall. intros x I. rewrite Forall_forall in F. destruct (F x) as [F1 F2]; [destruct I as [->|I]; [left; auto|right; apply in_rev; auto]|].
    apply boundary_Bd; [apply (do_utf8 d HD)|lia|auto]. }
  destruct (clean_step U (d_text d) cs (do_utf8 d HD) HC true _ (new_good d (n_start n))) as (sc & S & G). rewrite S. cbn [bind].
  eapply (loop_answers U d cs roots HD HC md parts providers lang ents settings order p CO QU n ps FB (scan_fuel (d_text d)) []); eauto.
  - constructor.
  - apply new_good.
  - cbn. inversion F; subst. lia.
  - apply start_measure.
Qed.
Print Assumptions C59_completion.
(** Selection ranges: on ASCII text, with the tree of whatever text. *)
Theorem C59_selection : forall U0 t0 cs0 void0 roots U d cs p, Utf8 t0 -> parse U0 t0 cs0 void0 = Ok roots ->
  textdoc_ok d -> all_ascii (d_text d) = true ->
  exists r, get_selection_range U d p roots cs = Ok r.
Proof.
  intros U0 t0 cs0 void0 roots U d cs p H0 HP HD AX. unfold get_selection_range.
  enough (exists l, get_applicable_ranges U d p roots cs = Ok l) as (l & ->) by (cbn [bind]; eauto).
  unfold get_applicable_ranges. set (o := offset_at d p). set (t := d_text d).
  destruct (find_at_total roots o) as (r & -> & F). cbn [bind]. destruct r as [[n ps]|]; [|eauto]. specialize (F n ps eq_refl).
  inversion F as [|x l [IN SP] _]; subst.
  assert (GC : forall a b, a <= b -> exists x, get_content d (range_at d a b) = Ok x /\ all_ascii x = true).
  { assert (OF : forall a, offset_at d (position_at d a) = Nat.min a (length t)).
    { intros a. destruct (Nat.le_gt_cases a (length t)).
      - rewrite Nat.min_l by lia. apply (do_inv _ HD); auto. apply Bd_boundary. apply ascii_bd; auto.
      - rewrite Nat.min_r, (do_clamp _ HD) by (unfold t in *; lia). apply (do_inv _ HD); auto. apply Bd_boundary. apply ascii_bd; auto. }
    intros a b L. unfold get_content. cbn [range_at r_start r_end]. rewrite !OF.
    eexists. split; [apply slice_bd; try (apply ascii_bd; auto); fold t; lia|].
    unfold all_ascii, sub in *. rewrite forallb_forall in *. intros x I. apply AX. apply firstn_in in I.
    rewrite <- (firstn_skipn (Nat.min a (length t)) (d_text d)). apply in_or_app. right. exact I. }
  assert (AL : exists al, get_attribute_level_ranges U d n o cs = Ok al).
  { unfold get_attribute_level_ranges. destruct (GC (n_start n) (n_end n)) as (x & -> & AA); [lia|]. cbn [bind]. unfold usub.
    replace (n_start n <=? o) with true by lia. cbn [bind].
    destruct (attr_loop_answers U cs x (o - n_start n) (ascii_utf8 x AA) (ascii_clean x AA) (scan_fuel x) (scanner_new 0 WithinContent) (mkA [] false 0)) as (al & ->).
    - intros _. right. right. reflexivity.
    - unfold measure, scan_fuel. cbn -[Nat.mul Nat.sub Nat.leb]. destruct (length x <=? 0); lia.
    - cbn [bind]. eauto. }
  destruct AL as (al & AL).
  assert (S2 : forall s, n_ste n = Some s -> 2 <= s).
  { intros s E. assert (HD0 : textdoc_ok (utf16_doc t0)) by (apply C27_contract; auto).
    pose proof (ste_gt U0 (utf16_doc t0) cs0 void0 roots HD0 HP n s IN E) as G.
    destruct (C12_spans _ _ _ _ _ H0 HP) as (_ & W). rewrite Forall_forall in W. specialize (W n IN). unfold span_ok in W. rewrite E in W.
    destruct (node_facts _ _ _ _ _ H0 HP) as (l & T & N). destruct (N n IN). cbn [utf16_doc d_text] in G.
    destruct (Nat.eq_dec s 1) as [-> |]; [|destruct (n_ets n); lia]. replace (n_start n) with 0 in ok_lt by (destruct (n_ets n); lia).
    cbn [Nat.sub] in G. rewrite ok_lt in G. discriminate. }
  destruct (n_ste n) as [s|] eqn:ES; [|eauto]. specialize (S2 s eq_refl). unfold usub. destruct (n_ets n) as [e|].
  - rewrite AL. destruct (_ && _); [replace (1 <=? s) with true by lia; cbn [bind]; eauto|]. destruct (_ && _); [eauto|]. destruct (_ <=? _); [|eauto].
    replace (1 <=? n_end n) with true by lia. cbn [bind]. eauto.
  - destruct (negb _); [eauto|]. replace (2 <=? s) with true by lia. cbn [bind]. destruct (GC (s - 2) s) as (x & -> & _); [lia|]. cbn [bind]. rewrite AL.
    destruct (beq _ _); [|replace (1 <=? s) with true by lia]; cbn [bind]; eauto.
Qed.
Print Assumptions C59_selection.
(** All together, for ASCII text: with the tree of any text, at any version of the document, every
    request at a cursor whose column is in order is answered. *)
Theorem C59_outdated : forall U0 t0 cs0 void0 roots U d cs p, Utf8 t0 -> parse U0 t0 cs0 void0 = Ok roots ->
  textdoc_ok d -> all_ascii (d_text d) = true -> word_column (d_text d) (offset_at d p) p ->
  (exists r, find_linked_editing_ranges d p roots = Ok r) /\
  (exists r, find_matching_tag_position d p roots = Ok r) /\
  (forall name, exists r, do_rename d p name roots = Ok r) /\
  (exists r, find_document_highlights U d p roots cs = Ok r) /\
  (exists r, get_selection_range U d p roots cs = Ok r) /\
  (forall md parts providers lang ents opts, exists r, do_hover U d cs md parts providers lang ents opts p roots = Ok r) /\
  (forall providers lang, exists r, do_tag_complete U d cs providers lang roots p = Ok r) /\
  (forall settings, exists r, do_quote_complete U d cs settings roots p = Ok r) /\
  (forall md parts providers lang ents settings order, exists r, do_complete U d cs md parts providers lang ents settings order roots p = Ok r).
Proof.
  intros U0 t0 cs0 void0 roots U d cs p H0 HP HD AX CO. pose proof (ascii_clean _ AX) as HC.
  destruct (C59_rescan U d cs roots HD HC) as (R1 & R2 & R3 & R4). destruct (C59_tags d roots p []) as (T1 & T2 & _).
  split; auto. split; auto. split; [intros name; apply (C59_tags d roots p name)|]. split; auto.
  split; [eapply C59_selection; eauto|]. split; [auto|]. split; [auto|]. split; [auto|].
  intros md parts providers lang ents settings order. apply C59_completion; auto; [apply ascii_quiet; auto|].
  intros n IN L. apply Bd_boundary. apply ascii_bd; auto. destruct (do_offset d HD p). lia.
Qed.
Print Assumptions C59_outdated.

(** ** An example *)
(** A page, and the page after an edit that the tree does not know of. *)
Definition page_before : str := bs "<div><p>one</p><br/></div>".
Definition page_after : str := bs "<ul><li class=x>two <b> </li></ul>".
Definition is_ok {A} (x : res A) : bool := match x with Ok _ => true | _ => false end.
Definition answers (t0 t : str) (o : nat) : list bool :=
  match parse demo_unicode t0 false html5_void with
  | Ok roots =>
      let d := utf16_doc t in let p := position_at d o in
      [is_ok (do_complete demo_unicode d false true [] [edits_provider] (bs "html") entities None (fun m => m) roots p);
       is_ok (do_hover demo_unicode d false true [] [edits_provider] (bs "html") entities (mkHS true true) p roots);
       is_ok (do_tag_complete demo_unicode d false [edits_provider] (bs "html") roots p);
       is_ok (do_quote_complete demo_unicode d false None roots p); is_ok (get_selection_range demo_unicode d p roots false);
       is_ok (find_document_highlights demo_unicode d p roots false)]
  | _ => []
  end.
Example C59_demo : forallb (fun o => forallb (fun b => b) (answers page_before page_after o) && (length (answers page_before page_after o) =? 6))
  (seq 0 (Datatypes.S (length page_after))) = true.
Proof. vm_compute. reflexivity. Qed.
(** The hypotheses hold; the answers are those of the outdated tree: the name to rename
    is the three bytes where 'div' was. *)
Example C59_hypotheses : exists roots, parse demo_unicode page_before false html5_void = Ok roots /\ all_ascii page_after = true /\
  word_column page_after 2 (position_at (utf16_doc page_after) 2) /\
  parse demo_unicode page_after false html5_void <> Ok roots /\
  do_rename (utf16_doc page_after) (mkPos 0 2) (bs "x") roots =
    Ok (Some [(mkRange (mkPos 0 1) (mkPos 0 4), bs "x"); (mkRange (mkPos 0 22) (mkPos 0 25), bs "x")]).
Proof.
  eexists. split; [vm_compute; reflexivity|]. split; [reflexivity|]. split.
  { apply C58_columns; [apply ascii_utf8; reflexivity|cbn; lia|reflexivity]. }
  split; [vm_compute; discriminate|vm_compute; reflexivity].
Qed.

(** ** Findings *)
(** With characters that are not ASCII an outdated tree does harm: an element that would begin
    inside a character breaks completion ('</' typed behind an e with acute accent and a blank, with the tree of
    a text that had a start tag at 1); *)
Definition accent_after : str := encode [233%N] ++ bs " </".
Theorem C59_completion_refuted : exists roots, parse demo_unicode (bs " <p>") false html5_void = Ok roots /\
  clean accent_after /\ textdoc_ok (utf16_doc accent_after) /\ quiet accent_after 5 /\
  word_column accent_after 5 (position_at (utf16_doc accent_after) 5) /\
  do_complete demo_unicode (utf16_doc accent_after) false true [] [edits_provider] (bs "html") entities None (fun m => m) roots
    (position_at (utf16_doc accent_after) 5) = Panic PSlice.
Proof.
  eexists. split; [vm_compute; reflexivity|]. split; [apply is_clean_spec; vm_compute; reflexivity|].
  assert (HU : Utf8 accent_after) by (exists (decode accent_after); vm_compute; auto).
  split; [apply C27_contract; auto|]. split.
  { intros i (c & C & L) W _. assert (i < 2) by (destruct i as [|[|[|[|[|i]]]]]; cbv in C; try lia; try (injection C as <-; lia); destruct i; discriminate).
    specialize (W 2 32%N). cbv in W. assert (X : false = true); [|discriminate]. symmetry. apply W; [lia|reflexivity|reflexivity]. }
  split; [apply C58_columns; auto; reflexivity|]. vm_compute. reflexivity.
Qed.
(** an element that would end behind such a character breaks selection ranges. *)
Definition type_after : str := bs "<p type=""z" ++ encode [233%N] ++ bs "y"">".
Theorem C59_selection_refuted : exists roots, parse demo_unicode (bs "<p type=""z"">") false html5_void = Ok roots /\
  clean type_after /\ textdoc_ok (utf16_doc type_after) /\
  get_selection_range demo_unicode (utf16_doc type_after) (mkPos 0 4) roots false = Panic PSlice.
Proof.
  eexists. split; [vm_compute; reflexivity|]. split; [apply is_clean_spec; vm_compute; reflexivity|].
  assert (HU : Utf8 type_after) by (exists (decode type_after); vm_compute; auto).
  split; [apply C27_contract; auto|]. vm_compute. reflexivity.
Qed.
Print Assumptions C59_completion_refuted.
Print Assumptions C59_selection_refuted.
