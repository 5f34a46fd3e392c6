(** * What completion proposes behind '<' and '>', in end tags, in text and elsewhere (C69) *)
From Verif Require Import SelectionRange PropTags PropSelection Base BaseFacts Stream Scanner ScannerFacts ScanStep ScanProps ScanShape ScanResume ScanPanic Tree
  Parser ParseSpec ParseInv ParseOrder PropParse TreeFacts PropTree ParseEnd PropEnd TextDoc PropDoc ScanComplete
  ScanLocal SelAttr TokenLoop NodeScan DataManager PropData BuiltinData Entities Hover PropHover PropHoverDoc Completion PropTagComplete
  PropComplete PropEdits PropAnswers.
From Coq Require Import ZifyBool ZifyNat ZifyN Sorted Permutation.

(** ** Specification *)
(** Nothing but white space is between the start of its line and [a]; [s] is that white space. (The
    code takes the bytes of characters outside ASCII for white space.) *)
Definition indent_of (t : str) (a : nat) (s : str) : Prop :=
  exists b, b <= a /\ s = sub t b a /\ (b = 0 \/ nth_error t (b - 1) = Some 10%N) /\
    forall i, b <= i < a -> exists c, nth_error t i = Some c /\ c <> 10%N /\ (is_uspace c = true \/ (128 <= c)%N).
(** The name that begins at [o], if one does, ends at [e]. *)
Definition name_from (U : unicode) (t : str) (o e : nat) : Prop :=
  name_text U t o e \/ (e = o /\ forall c, char_at t o c -> name_start_char U c = false).
(** The element has no end tag in front of the cursor. *)
Definition still_open (o : nat) (y : node) : Prop :=
  n_closed y = false \/ exists e, n_ets y = Some e /\ o < e.
(** [y], with the name [x], is the innermost of the elements [P] that is still open. *)
Definition nearest (roots : list node) (o : nat) (P : node -> Prop) (y : node) (x : str) : Prop :=
  In y (doc_nodes roots) /\ P y /\ n_tag y = Some x /\ still_open o y /\
  forall m, In m (doc_nodes roots) -> P m -> n_tag m <> None -> still_open o m -> n_start m <= n_start y.
(** The proposal to write the end tag [x] of the element that begins at [s] in place of what is from
    [a], behind the '<', to [e]. If both tags are first in their lines and not indented alike, the
    indentation is corrected. *)
Definition closes (d : textdoc) (o s a e : nat) (x : str) (i : item) : Prop :=
  ci_label i = bs "/" ++ x /\ ci_kind i = Some KProperty /\ ci_doc i = None /\ ci_format i = Some FPlain /\ ci_command i = false /\ exists f : bool, (f = true <-> next_is_gt (d_text d) e) /\
  let close := if f then [] else bs ">" in
  ((forall si ei, indent_of (d_text d) s si -> indent_of (d_text d) (a - 1) ei -> si = ei) ->
     ci_filter i = Some (bs "/" ++ x) /\ ci_edit i = Some (range_at d a e, bs "/" ++ x ++ close)) /\
  (forall si ei, indent_of (d_text d) s si -> indent_of (d_text d) (a - 1) ei -> si <> ei ->
     ci_filter i = Some (ei ++ bs "</" ++ x) /\ ci_edit i = Some (range_at d (a - 1 - length ei) o, si ++ bs "</" ++ x ++ close)).
(** The proposals for the names of tags: those of the providers in use, each for the text [a] to [e]. *)
Definition all_tags (d : textdoc) (providers : list provider) (lang : str) (settings : option completion_settings)
    (a e : nat) (items : list item) : Prop :=
  forall i, In i items <-> exists q td, in_use providers lang settings q /\ In td (pv_tags q) /\
    i = tag_proposal (range_at d a e) td.

(** After white space, if any, comes a '='. *)
Definition next_is_eq (t : str) (e : nat) : Prop :=
  exists j, e <= j /\ (forall i, e <= i < j -> exists b, nth_error t i = Some b /\ is_ws b = true) /\ nth_error t j = Some EQ.

(** ** Indentation *)
Lemma indent_start t : forall o, o <= length t -> match line_indent_start t o with
  | Some b => b <= o /\ (b = 0 \/ nth_error t (b - 1) = Some 10%N) /\
      forall i, b <= i < o -> exists c, nth_error t i = Some c /\ c <> 10%N /\ (is_uspace c = true \/ (128 <= c)%N)
  | None => exists i, i < o /\ (exists c, nth_error t i = Some c /\ c <> 10%N /\ is_uspace c = false /\ (c < 128)%N) /\
      forall j, i < j < o -> exists c, nth_error t j = Some c /\ c <> 10%N
  end.
Proof.
  induction o as [|k IH]; intros L; cbn [line_indent_start]; [split; [lia|]; split; [auto|]; intros; lia|].
  specialize (IH ltac:(lia)). destruct (nth_error t k) as [c|] eqn:N; [|apply nth_error_None in N; lia].
  assert (GO : c <> 10%N -> (is_uspace c = true \/ (128 <= c)%N) -> match line_indent_start t k with
  | Some b => b <= Datatypes.S k /\ (b = 0 \/ nth_error t (b - 1) = Some 10%N) /\
      forall i, b <= i < Datatypes.S k -> exists c, nth_error t i = Some c /\ c <> 10%N /\ (is_uspace c = true \/ (128 <= c)%N)
  | None => exists i, i < Datatypes.S k /\ (exists c, nth_error t i = Some c /\ c <> 10%N /\ is_uspace c = false /\ (c < 128)%N) /\
      forall j, i < j < Datatypes.S k -> exists c, nth_error t j = Some c /\ c <> 10%N
  end).
  { intros C1 C2. destruct (line_indent_start t k) as [b|].
    - destruct IH as (A & B & C). split; [lia|]. split; auto. intros i I. destruct (Nat.eq_dec i k) as [->|]; [eauto|]. apply C. lia.
    - destruct IH as (i & A & B & C). exists i. split; [lia|]. split; auto. intros j J. destruct (Nat.eq_dec j k) as [->|]; [eauto|]. apply C. lia. }
  unfold get1. rewrite N. destruct (c <? 128)%N eqn:A.
  - destruct (c =? 10)%N eqn:Q; [|unfold white; destruct (is_uspace c) eqn:S; [apply GO; [lia|auto]|]].
    + split; [lia|]. split; [right; rewrite Nat.sub_succ, Nat.sub_0_r, N; f_equal; lia|]. intros; lia.
    + exists k. split; [lia|]. split; [exists c; repeat split; auto; lia|]. intros; lia.
  - apply GO; [lia|]. right. lia.
Qed.
Lemma indent_unique t a s s' : a <= length t -> indent_of t a s -> indent_of t a s' -> s = s'.
Proof.
  intros L (b & B1 & -> & B3 & B4) (b' & C1 & -> & C3 & C4). f_equal.
  destruct (Nat.lt_trichotomy b b') as [Q|[Q|Q]]; auto; exfalso.
  - destruct C3 as [->|C3]; [lia|]. destruct (B4 (b' - 1)) as (c & A1 & A2 & _); [lia|]. congruence.
  - destruct B3 as [->|B3]; [lia|]. destruct (C4 (b - 1)) as (c & A1 & A2 & _); [lia|]. congruence.
Qed.
Lemma line_indent t a r : a <= length t -> get_line_indent t a = Ok r -> forall s, r = Some s <-> indent_of t a s.
Proof.
  intros L H s. unfold get_line_indent in H. pose proof (indent_start t a L) as IS. destruct (line_indent_start t a) as [b|].
  - apply bind_ok in H as (x & X & H). apply Ok_inj in H. subst r. apply slice_ok in X as (_ & _ & _ & _ & X). destruct IS as (A & B & C).
    assert (I : indent_of t a x) by (exists b; auto).
    split; [intros Q; apply Some_inj in Q; subst; auto|]. intros I'. f_equal. eapply indent_unique; eauto.
  - apply Ok_inj in H. subst r. split; [discriminate|]. intros (b & B1 & _ & B3 & B4). exfalso. destruct IS as (i & A & (c & C1 & C2 & C3 & C4) & B).
    destruct (Nat.lt_ge_cases i b).
    + destruct B3 as [->|B3]; [lia|]. destruct (Nat.eq_dec i (b - 1)) as [->|]; [congruence|]. destruct (B (b - 1)) as (c' & D1 & D2); [lia|]. congruence.
    + destruct (B4 i) as (c' & D1 & D2 & D3); [lia|]. rewrite C1 in D1. injection D1 as <-. destruct D3; [congruence|lia].
Qed.

Section Proposals.
Variables (U : unicode) (d : textdoc) (cs : bool) (void : list str) (roots : list node) (l : list token).
Hypothesis HD : textdoc_ok d.
Hypothesis HP : parse U (d_text d) cs void = Ok roots.
Hypothesis HT : doc_tokens U (d_text d) cs = Ok l.
Notation t := (d_text d).
Let HU : Utf8 t := do_utf8 d HD.
Variables (md : bool) (parts : list completion_participant) (providers : list provider) (lang : str)
  (ents : list (str * list N)) (settings : option completion_settings) (order : list (str * str) -> list (str * str)).
Variable p : position.
Let o := offset_at d p.
Notation complete := (do_complete U d cs md parts providers lang ents settings order roots).
Notation step := (complete_step U d cs md parts providers lang ents settings order roots p o).

Lemma at_token n ps l1 k l2 items : find_node_before roots o = Ok (Some (n, ps)) -> l = l1 ++ k :: l2 -> tk_off k < o <= tk_end k ->
  complete p = Ok items ->
  exists pre mid m z sc f r tg at', l1 = pre ++ mid /\ runs U t true cs (scanner_new (n_start n) WithinContent) m z /\
    map token_of m = mid /\ scan U t true cs z = Ok sc /\ scan U t true cs sc = Ok f /\
    tok sc = tk_type k /\ tok_off sc = tk_off k /\ pos sc = tk_end k /\ st sc = tk_state k /\ tok sc <> EOS /\
    (mid = [] -> tk_type k = StartTagOpen /\ tk_off k = n_start n) /\
    (forall op r, mid = op :: r -> tk_type op = StartTagOpen /\ tk_off op = n_start n) /\
    step n ps sc (tag_at t mid) (attr_at t mid) = Ok (r, tg, at') /\ items = match r with Some i => i | None => [] end.
Proof.
  intros F E K C. destruct (complete_at_next U d cs void roots l HD HP HT md parts providers lang ents settings order p n ps l1 k l2 F E K)
    as (pre & mid & m & z & sc & f & X1 & X2 & X3 & X4 & X5 & X6 & X7 & X8 & X9 & C').
  rewrite C in C'. symmetry in C'. unfold answer in C'. apply bind_ok in C' as ([[r tg] at'] & ST & C'). apply Ok_inj in C'. cbn [fst] in C'.
  exists pre, mid, m, z, sc, f, r, tg, at'. repeat (split; [assumption || (rewrite <- X6; reflexivity)|]). auto.
Qed.

(** ** Elements around *)
Lemma open_still y : Completion.open_at o y = true <-> n_tag y <> None /\ still_open o y.
Proof.
  unfold Completion.open_at, still_open. destruct (n_tag y); [|split; [discriminate|intros [H _]; congruence]].
  destruct (n_closed y); cbn [negb orb]; [|split; auto; intros _; split; [discriminate|auto]].
  destruct (n_ets y) as [e|]; split; intros H.
  - split; [discriminate|]. right. exists e. split; auto. lia.
  - destruct H as [_ [H|(e' & H & L)]]; [discriminate|]. injection H as <-. lia.
  - discriminate.
  - destruct H as [_ [H|(e' & H & L)]]; discriminate.
Qed.
Lemma find_nearest (P : node -> Prop) up : StronglySorted (fun a b => n_start b < n_start a) up ->
  (forall m, In m up <-> In m (doc_nodes roots) /\ P m) ->
  forall y x, find (Completion.open_at o) up = Some y /\ n_tag y = Some x <-> nearest roots o P y x.
Proof.
  intros SS IN.
  assert (FWD : forall y x, find (Completion.open_at o) up = Some y -> n_tag y = Some x -> nearest roots o P y x).
  { intros y x F T. destruct (find_some _ _ F) as [Y OA]. apply open_still in OA as [_ OA]. apply IN in Y as [Y PY].
    repeat (split; [assumption|]). intros m M PM NT OM. eapply find_first; eauto; [apply IN; auto|apply open_still; auto]. }
  intros y x. split; [intros [A B]; auto|]. intros (Y & PY & T & OY & MX).
  assert (OA : Completion.open_at o y = true) by (apply open_still; split; [congruence|auto]). assert (IY : In y up) by (apply IN; auto).
  destruct (find (Completion.open_at o) up) as [y'|] eqn:F; [|apply (find_none _ _ F) in IY; congruence].
  split; auto. f_equal. destruct (find_some _ _ F) as [Y' OA']. apply open_still in OA' as [NT' OA']. destruct (n_tag y') as [x'|] eqn:T'; [|congruence].
  destruct (FWD y' x' eq_refl T') as (A1 & A2 & _ & A3 & A4). apply (same_start U d cs void roots HD HP); auto.
  specialize (A4 y Y PY ltac:(congruence) OY). specialize (MX y' A1 A2 ltac:(congruence) A3). lia.
Qed.
Lemma up_sorted n ps : find_node_before roots o = Ok (Some (n, ps)) ->
  StronglySorted (fun a b => n_start b < n_start a) (n :: rev ps) /\
  (forall m, In m (rev ps) <-> In m (doc_nodes roots) /\ inside n m) /\ In n (doc_nodes roots).
Proof.
  intros F. destruct (found U d cs void roots HD HP _ _ _ F) as (P & I & _). pose proof (parsed_wf _ _ _ _ _ HU HP) as W.
  split; [apply (path_order _ _ _ P W)|]. split; auto. intros m. rewrite <- in_rev. split.
  - intros M. split; [apply path_in in P as [_ Q]; rewrite Forall_forall in Q; auto|]. eapply path_inside; eauto.
  - intros [M IM]. eapply path_ancestors; eauto.
Qed.
Lemma up_whole n ps : find_node_before roots o = Ok (Some (n, ps)) ->
  forall m, In m (n :: rev ps) <-> In m (doc_nodes roots) /\ (m = n \/ inside n m).
Proof.
  intros F m. destruct (up_sorted n ps F) as (_ & I & N). cbn [In]. rewrite I. split; [intros [->|[A B]]; auto|].
  intros [A [->|B]]; auto.
Qed.

(** ** The end tag *)
Lemma close_item_closes y x a b f i : In y (doc_nodes roots) -> 1 <= a <= o -> b <= length t -> close_item d o a b (if f : bool then [] else bs ">") y x = Ok i ->
  (f = true <-> next_is_gt t b) -> closes d o (n_start y) a b x i.
Proof.
  intros IY A B H FF. pose proof (o_le d HD p) as OL. fold o in OL. unfold close_item in H.
  apply bind_ok in H as (si & SI & H). apply bind_ok in H as (a1 & A1 & H). unfold usub in A1. replace (1 <=? a) with true in A1 by lia.
  apply Ok_inj in A1. subst a1. apply bind_ok in H as (ei & EI & H).
  destruct (span U d cs void roots HD HP y IY) as (SP & SL & _).
  assert (LS := fun L => line_indent _ _ _ L SI). specialize (LS ltac:(lia)). assert (LE := fun L => line_indent _ _ _ L EI). specialize (LE ltac:(lia)).
  assert (SIMPLE : Ok (mkItem (bs "/" ++ x) (Some KProperty) None (Some (bs "/" ++ x))
                  (Some (replace_range d o a b, bs "/" ++ x ++ (if f : bool then [] else bs ">"))) (Some FPlain) false) = Ok i ->
     (forall s e, si = Some s -> ei = Some e -> s = e) -> closes d o (n_start y) a b x i).
  { intros Q EQ. apply Ok_inj in Q. subst i. do 5 (split; [reflexivity|]). exists f. split; auto. cbn zeta. split.
    - intros _. split; [reflexivity|]. cbn [ci_edit]. unfold replace_range. rewrite Nat.min_l by lia. reflexivity.
    - intros s e S E NE. apply LS in S. apply LE in E. elim NE. eauto. }
  destruct si as [si|]; [|apply SIMPLE; auto; discriminate]. destruct ei as [ei|]; [|apply SIMPLE; auto; discriminate].
  destruct (beq si ei) eqn:BE.
  - apply beq_eq in BE. apply SIMPLE; auto. intros s e S E. congruence.
  - assert (NE : si <> ei) by (intros Q; rewrite Q, beq_refl in BE; discriminate).
    apply bind_ok in H as (a2 & A2 & H). unfold usub in A2. destruct (_ <=? _) eqn:LL in A2; [|discriminate]. apply Ok_inj in A2. subst a2.
    apply Ok_inj in H. subst i. do 5 (split; [reflexivity|]). exists f. split; auto. cbn zeta. split.
    + intros Q. elim NE. apply Q; [apply LS|apply LE]; auto.
    + intros s e S E _. apply LS in S. apply LE in E. apply Some_inj in S, E. subst s e.
      split; [reflexivity|]. cbn [ci_edit]. unfold replace_range. rewrite Nat.min_l by lia. reflexivity.
Qed.
Lemma close_tag_closes n ps a (io : bool) b items : 1 <= a <= o -> b <= length t -> find_node_before roots o = Ok (Some (n, ps)) ->
  close_tag_items U d cs md providers lang settings o n ps a io b = Ok items ->
  let P m := if io then inside n m else m = n \/ inside n m in
  (forall y x, nearest roots o P y x -> exists i, items = [i] /\ closes d o (n_start y) a b x i) /\
  ((forall y x, ~ nearest roots o P y x) ->
     items = if io then [] else flat_map (fun q => map (end_tag_item md) (pv_tags q)) (used providers lang settings)).
Proof.
  intros A B F H P. unfold close_tag_items in H. apply bind_ok in H as (f & FO & H). apply followed_close in FO; auto. cbn [scanner_new pos] in FO.
  destruct (up_sorted n ps F) as (SS & IN & NI).
  assert (NEAR : forall y x, find (Completion.open_at o) (if io then rev ps else n :: rev ps) = Some y /\ n_tag y = Some x <-> nearest roots o P y x).
  { apply find_nearest.
    - destruct io; auto. inversion SS; auto.
    - intros m. unfold P. destruct io; [apply IN|]. apply (up_whole n ps F). }
  destruct (find (Completion.open_at o) (if io then rev ps else n :: rev ps)) as [y|] eqn:FY.
  - destruct (find_some _ _ FY) as [Y OA]. apply open_still in OA as [NT _]. destruct (n_tag y) as [x|] eqn:TY; [|congruence].
    apply bind_ok in H as (i & I & H). apply Ok_inj in H. subst items.
    pose proof (proj1 (NEAR y x) (conj eq_refl TY)) as N. split.
    + intros y' x' N'. apply NEAR in N' as [E T']. apply Some_inj in E. subst y'. rewrite TY in T'. injection T' as <-.
      exists i. split; auto. eapply close_item_closes; eauto. apply N.
    + intros NO. elim (NO y x). exact N.
  - apply Ok_inj in H. subst items. split; auto. intros y x N. apply NEAR in N as [N _]. discriminate.
Qed.
Lemma open_tags_all a b : a <= o -> all_tags d providers lang settings a b (open_tag_items d providers lang settings o a b).
Proof.
  intros L i. unfold o. rewrite (open_items d providers lang settings p). fold o. unfold replace_range. rewrite Nat.min_l by auto. reflexivity.
Qed.

(** ** Behind '<' *)
Lemma next_name sc f e : scan U t true cs sc = Ok f -> st sc = AfterOpeningStartTag ->
  next_end_pos U d cs o sc StartTag = Ok e -> (pos sc = o -> name_from U t o e) /\ (pos sc <> o -> e = o) /\ o <= e <= length t.
Proof.
  intros S ST N. split; [|split; [|eapply next_end_ge; eauto]].
  - intros PO. unfold next_end_pos in N. rewrite PO, Nat.eqb_refl, S in N. cbn [bind] in N. assert (S0 := S). apply scan_outcome in S; auto.
    assert (NONE : m_element_name U (skipn o t) = None -> forall c, char_at t o c -> name_start_char U c = false).
    { intros M. apply no_elem_char; auto. intros e'. apply no_name_none. auto. }
    destruct (token_eqb (tok f) StartTag && (tok_off f =? o)) eqn:Q; apply Ok_inj in N; subst e.
    + apply andb_prop in Q as [Q1 Q2]. apply token_eqb_eq in Q1. left. apply scan_shape in S0; auto. unfold token_shape in S0.
      cbn [token_of tk_type tk_off tk_end] in S0. rewrite Q1 in S0. replace (tok_off f) with o in S0 by lia. exact S0.
    + right. split; auto. apply NONE. rewrite <- PO.
      inversion S; subst; cbn [finish tok tok_off] in *; try congruence;
        try (destruct H as [H|[[H ?]|[H ?]]]; congruence); auto.
      * apply no_name_end. auto.
      * destruct H; congruence.
      * rewrite PO, Nat.eqb_refl in Q. discriminate.
      * destruct (skip_ws_some _ _ _ H0) as (W1 & W2 & W3 & _). destruct (W3 (pos sc)) as (b & B1 & B2); [lia|lia|]. eapply ws_no_elem; eauto.
      * inversion H0; subst; try congruence. apply no_name_gt. auto.
  - intros NP. unfold next_end_pos in N. replace (o =? pos sc) with false in N by lia. apply Ok_inj in N. auto.
Qed.
(** Behind '</'. *)
Lemma next_end_name sc f e : scan U t true cs sc = Ok f -> st sc = AfterOpeningEndTag ->
  next_end_pos U d cs o sc EndTag = Ok e -> (pos sc = o -> name_from U t o e) /\ (pos sc <> o -> e = o) /\ o <= e <= length t.
Proof.
  intros S ST N. split; [|split; [|eapply next_end_ge; eauto]].
  - intros PO. unfold next_end_pos in N. rewrite PO, Nat.eqb_refl, S in N. cbn [bind] in N. assert (S0 := S). apply scan_outcome in S; auto.
    assert (NONE : m_element_name U (skipn o t) = None -> forall c, char_at t o c -> name_start_char U c = false).
    { intros M. apply no_elem_char; auto. intros e'. apply no_name_none. auto. }
    destruct (token_eqb (tok f) EndTag && (tok_off f =? o)) eqn:Q; apply Ok_inj in N; subst e.
    + apply andb_prop in Q as [Q1 Q2]. apply token_eqb_eq in Q1. left. apply scan_shape in S0; auto. unfold token_shape in S0.
      cbn [token_of tk_type tk_off tk_end] in S0. rewrite Q1 in S0. replace (tok_off f) with o in S0 by lia. exact S0.
    + right. split; auto. apply NONE. rewrite <- PO.
      inversion S; subst; cbn [finish tok tok_off] in *; try congruence;
        try (destruct H as [H|[[H ?]|[H ?]]]; congruence); auto.
      all: first [solve [apply no_name_end; auto]|solve [destruct H; congruence]|solve [rewrite PO, Nat.eqb_refl in Q; discriminate]|solve [apply no_name_gt; auto]
        |solve [match goal with W : skip_ws _ _ = Some _ |- _ => destruct (skip_ws_some _ _ _ W) as (W1 & W2 & W3 & _) end; destruct (W3 (pos sc)) as (b & B1 & B2); [lia|lia|]; eapply ws_no_elem; eauto]
        |solve [match goal with E : enter_tag _ _ _ |- _ => inversion E; subst; congruence end]].
  - intros NP. unfold next_end_pos in N. replace (o =? pos sc) with false in N by lia. apply Ok_inj in N. auto.
Qed.
Lemma open_node k : In k l -> tk_type k = StartTagOpen -> exists n, In n (doc_nodes roots) /\ n_start n = tk_off k.
Proof.
  intros I T. pose proof (C13_nodes_are_open_tags _ _ _ _ _ _ HU HT HP) as C.
  assert (X : In (tk_off k) (map n_start (doc_nodes roots))).
  { rewrite C. apply in_map. apply filter_In. split; auto. rewrite T. reflexivity. }
  apply in_map_iff in X as (n & N & X). eauto.
Qed.
Lemma behind_open k items : In k l -> tk_type k = StartTagOpen -> tk_end k = o -> complete p = Ok items ->
  exists n ps e dt tags close, In n (doc_nodes roots) /\ n_start n = tk_off k /\ find_node_before roots o = Ok (Some (n, ps)) /\
    name_from U t o e /\ e <= length t /\ o = tk_off k + 1 /\
    items = dt ++ tags ++ close /\ dt = (if line p =? 0 then [doctype_item d o o e] else []) /\
    tags = open_tag_items d providers lang settings o o e /\
    close_tag_items U d cs md providers lang settings o n ps o true e = Ok close.
Proof.
  intros K T KE C. assert (OE := open_end U d cs l HD HT k K T). destruct (open_node k K T) as (n & I & N).
  destruct (span U d cs void roots HD HP n I) as (SP & _ & _).
  destruct (found_last U d cs void roots HD HP o n I) as (ps & F); [lia|intros; lia|lia|].
  apply in_split in K as (l1 & l2 & E).
  destruct (at_token n ps l1 k l2 items F E ltac:(lia) C) as (pre & mid & m & z & sc & f & r & tg & at' & X1 & X2 & X3 & X4 & X5 & X6 & X7 & X8 & X9 & X10 & _ & _ & ST & ->).
  assert (S9 : st sc = AfterOpeningStartTag).
  { apply scan_outcome in X4; auto. rewrite T in X6. inversion X4; subst; cbn [finish tok st] in *; try congruence; auto. inversion H1; subst; cbn [finish tok] in X6; congruence. }
  unfold complete_step in ST. cbn zeta in ST. rewrite X6, T, X8, KE, Nat.eqb_refl in ST. apply bind_ok in ST as (e & NE & ST).
  destruct (next_name sc f e X5 S9 NE) as (A1 & _ & A3). apply bind_ok in ST as (i & II & ST). apply Ok_inj in ST. injection ST as <- _ _.
  apply bind_ok in II as (ti & TI & II). apply Ok_inj in II. unfold tag_items in TI. apply bind_ok in TI as (cl & CL & TI). apply Ok_inj in TI. subst ti i.
  exists n, ps, e, (if line p =? 0 then [doctype_item d o o e] else []), (open_tag_items d providers lang settings o o e), cl.
  split; [auto|]. split; [auto|]. split; [auto|]. split; [apply A1; congruence|]. split; [lia|]. split; [lia|]. auto.
Qed.
Lemma behind_open_space l1 k l2 items : l = l1 ++ k :: l2 -> tk_type k = Whitespace -> tk_state k = AfterOpeningStartTag -> tk_off k < o <= tk_end k ->
  complete p = Ok items ->
  exists n ps e tags close, start_tag_at roots n o /\ find_node_before roots o = Ok (Some (n, ps)) /\
    (tk_end k = o -> name_from U t o e) /\ (tk_end k <> o -> e = o) /\ e <= length t /\ 1 <= tk_off k /\
    items = tags ++ close /\ tags = open_tag_items d providers lang settings o (tk_off k) e /\
    close_tag_items U d cs md providers lang settings o n ps (tk_off k) true e = Ok close.
Proof.
  intros E T S9 K C.
  destruct (complete_in_tag U d cs void roots l HD HP HT md parts providers lang ents settings order p l1 k l2 E K ltac:(rewrite S9; reflexivity) ltac:(congruence))
    as (n & ps & pre & op & ks & q & post & sc & F & I & _ & _ & _ & _ & _ & _ & _ & _ & _ & NS & LAST & ES & TK & C' & z & R & M).
  fold o in F, LAST, C'. rewrite C in C'. symmetry in C'. unfold answer in C'. apply bind_ok in C' as ([[r tg] at'] & ST & C'). apply Ok_inj in C'. cbn [fst] in C'.
  destruct (at_token n ps l1 k l2 items F E K C) as (pre' & mid & m & z' & sc' & f & r' & tg' & at'' & X1 & X2 & X3 & X4 & X5 & X6 & X7 & X8 & X9 & X10 & _ & _ & ST' & E').
  clear ST C'. unfold complete_step in ST'. cbn zeta in ST'. rewrite X6, T, X8, X9, S9, X7 in ST'.
  replace (o <=? tk_end k) with true in ST' by lia. apply bind_ok in ST' as (e & NE & ST').
  destruct (next_name sc' f e X5 ltac:(congruence) NE) as (A1 & A2 & A3). apply bind_ok in ST' as (i & TI & ST'). apply Ok_inj in ST'. injection ST' as <- _ _.
  unfold tag_items in TI. apply bind_ok in TI as (cl & CL & TI). apply Ok_inj in TI. subst i items.
  exists n, ps, e, (open_tag_items d providers lang settings o (tk_off k) e), cl.
  split. { split; auto. split; [lia|]. split; auto. intros s SS. specialize (ES s SS). lia. }
  split; [auto|]. split; [intros; apply A1; congruence|]. split; [intros; apply A2; congruence|]. split; [lia|]. split; [lia|]. auto.
Qed.

(** ** In an end tag *)
Definition slashed (sc : scanner) : Prop :=
  st sc = AfterOpeningEndTag -> exists q, 1 <= q < pos sc /\ nth_error t (q - 1) = Some LT /\ nth_error t q = Some SLASH /\
     (forall i, q < i < pos sc -> exists b, nth_error t i = Some b /\ is_ws b = true) /\
     (pos sc = q + 1 \/ forall b, nth_error t (pos sc) = Some b -> is_ws b = false).
Lemma slashed_step sc sc' : scan U t true cs sc = Ok sc' -> slashed sc -> slashed sc'.
Proof.
  intros S HA. apply scan_outcome in S; auto. inversion S; subst; try (intros Q; cbn [finish st pos tok] in *; try discriminate; auto; fail).
  - intros Q; cbn [finish st pos tok] in *. exists (pos sc + 1). replace (pos sc + 1 - 1) with (pos sc) by lia.
    split; [lia|]. split; auto. split; auto. split; [intros i I; lia|lia].
  - apply skip_ws_some in H0 as (W1 & W2 & W3 & W4). intros Q; cbn [finish st pos tok] in *.
    destruct (HA H) as (q & Q1 & Q2 & Q3 & Q4 & Q5). exists q. split; [lia|]. split; auto. split; auto. split; auto. intros i I.
    destruct (Nat.lt_ge_cases i (pos sc)); [apply Q4; lia|apply W3; lia].
  - destruct (enter_st d _ _ H0) as (E1 & E2 & E3 & E4).
    assert (X : st sc' <> AfterOpeningEndTag); [|intros Q; tauto].
    inversion H1; subst; cbn [finish st pos tok] in *; try congruence.
    unfold after_close. destruct (opt_beq _ _); [destruct (last_type sc1); discriminate|]. destruct (opt_beq _ _); discriminate.
  - intros Q; cbn [finish st] in Q; destruct H2 as [-> |[-> _]]; discriminate.
Qed.
Lemma slashed_runs m : forall sc z, runs U t true cs sc m z -> slashed sc -> slashed z.
Proof.
  induction m as [|x m IH]; intros sc z R H; [inversion R; subst; auto|]. apply runs_inv in R as (S & _ & R). eapply IH; eauto. eapply slashed_step; eauto.
Qed.
Lemma in_end_tag l1 k l2 n ps items : l = l1 ++ k :: l2 -> tk_off k < o <= tk_end k -> find_node_before roots o = Ok (Some (n, ps)) ->
  tk_type k = EndTag \/ (tk_type k = Whitespace /\ tk_state k = AfterOpeningEndTag) -> complete p = Ok items ->
  exists a, 1 <= a < tk_off k /\ nth_error t (a - 1) = Some LT /\ nth_error t a = Some SLASH /\
    (forall i, a < i < tk_off k -> exists b, nth_error t i = Some b /\ is_ws b = true) /\
    close_tag_items U d cs md providers lang settings o n ps a false (if token_eqb (tk_type k) EndTag then tk_end k else o) = Ok items.
Proof.
  intros E K F TY C.
  destruct (at_token n ps l1 k l2 items F E K C) as (pre & mid & m & z & sc & f & r & tg & at' & X1 & X2 & X3 & X4 & X5 & X6 & X7 & X8 & X9 & X10 & _ & _ & ST & ->).
  assert (SZ : slashed z) by (eapply slashed_runs; [exact X2|]; intros Q; discriminate).
  assert (Z : st z = AfterOpeningEndTag /\ pos z = tk_off k /\ (tk_type k = Whitespace -> exists b, nth_error t (pos z) = Some b /\ is_ws b = true)).
  { destruct TY as [TY|[TY TS]].
    - rewrite TY in X6. split; [apply (end_tag_name_step U d cs HD _ _ X4 X6)|]. split; [|congruence]. rewrite <- X7.
      apply scan_outcome in X4; auto. apply outcome_progress in X4 as (P & _). auto.
    - rewrite TY in X6. destruct (ws_step U d cs HD _ _ X4 X6) as (W1 & _). rewrite X9, TS in W1. specialize (W1 eq_refl). split; auto.
      apply scan_outcome in X4; auto. pose proof (outcome_progress _ _ _ _ _ _ X4) as (P & _). split; [congruence|]. intros _.
      inversion X4; subst; cbn [finish tok st] in *; try congruence; try (destruct H as [H|[[H ?]|[H ?]]]; congruence).
      + apply skip_ws_some in H0 as (A1 & A2 & A3 & _). apply A3; lia.
      + destruct (enter_st d _ _ H0) as (_ & _ & E3 & _). rewrite W1 in E3. discriminate. }
  destruct Z as (Z1 & Z2 & Z3). destruct (SZ Z1) as (a & A1 & A2 & A3 & A4 & A5). rewrite Z2 in *.
  exists a. split; [lia|]. split; auto. split; auto. split; auto.
  unfold complete_step in ST. cbn zeta in ST. rewrite X6, X7, X8, X9 in ST. destruct TY as [TY|[TY TS]].
  - rewrite TY in ST |- *. cbn [token_eqb]. replace (o <=? tk_end k) with true in ST by lia. unfold usub in ST. replace (1 <=? tk_off k) with true in ST by lia.
    cbn [bind] in ST. rewrite (slash_found d ents order p a A3 ltac:(lia) (tk_off k - 1) ltac:(lia)) in ST by (intros i Hi; apply A4; lia).
    cbn [bind] in ST. apply bind_ok in ST as (i & CL & ST). apply Ok_inj in ST. injection ST as <- _ _. exact CL.
  - rewrite TY, TS in ST. rewrite TY. replace (o <=? tk_end k) with true in ST by lia. cbn [token_eqb].
    unfold usub in ST. replace (1 <=? tk_off k) with true in ST by lia. cbn [bind] in ST.
    replace a with (tk_off k - 1). { apply bind_ok in ST as (i & CL & ST). apply Ok_inj in ST. injection ST as <- _ _. exact CL. }
    destruct A5 as [A5|A5]; [lia|]. destruct (Z3 TY) as (b & B1 & B2). rewrite (A5 b B1) in B2. discriminate.
Qed.

(** ** In text *)
Lemma in_text l1 k l2 n ps items : l = l1 ++ k :: l2 -> tk_off k < o <= tk_end k -> find_node_before roots o = Ok (Some (n, ps)) ->
  tk_type k = Content \/ (tk_type k = Whitespace /\ tk_state k = WithinContent) -> complete p = Ok items ->
  content_items d parts ents p o = Ok items.
Proof.
  intros E K F TY C.
  destruct (at_token n ps l1 k l2 items F E K C) as (pre & mid & m & z & sc & f & r & tg & at' & X1 & X2 & X3 & X4 & X5 & X6 & X7 & X8 & X9 & X10 & _ & _ & ST & ->).
  unfold complete_step in ST. cbn zeta in ST. rewrite X6, X7, X8, X9 in ST.
  destruct TY as [TY|[TY TS]]; [rewrite TY in ST|rewrite TY, TS in ST]; replace (o <=? tk_end k) with true in ST by lia;
    apply bind_ok in ST as (i & CL & ST); apply Ok_inj in ST; injection ST as <- _ _; exact CL.
Qed.

(** ** Behind '>' *)
Lemma behind_close k items : In k l -> tk_type k = StartTagClose -> tk_off k < o <= tk_end k -> complete p = Ok items ->
  exists n, In n (doc_nodes roots) /\ n_ste n = Some o /\
    items = match n_tag n with Some x => auto_close_items d providers lang settings o x | None => [] end.
Proof.
  intros K T L C. destruct (close_node U d cs void roots l HD HP HT k K T ltac:(lia)) as (n & I & N1 & N2 & N3).
  assert (KE : tk_end k = o).
  { destruct (doc_step U d cs l HT k K) as (u & v & S & _ & TK). apply scan_outcome in S; auto. rewrite <- TK in *. cbn [token_of tk_type tk_off tk_end] in *.
    inversion S; subst; cbn [finish tok tok_off pos] in *; try congruence; try lia. inversion H1; subst; cbn [finish tok tok_off pos] in *; try congruence; lia. }
  exists n. split; auto. split; [congruence|].
  destruct (span U d cs void roots HD HP n I) as (SP & _ & S3). rewrite N2 in S3.
  destruct (found_last U d cs void roots HD HP o n I) as (ps & F); [lia|intros; apply N3; auto; lia|destruct (n_ets n); lia|].
  destruct (node_facts _ _ _ _ _ HU HP) as (l' & T' & NF). rewrite HT in T'. apply Ok_inj in T'. subst l'.
  destruct (NF n I). destruct ok_start as (pre & op & ks & post & TS & P1 & P2 & P3 & _ & P4 & P5 & _ & P6).
  assert (PK : exists r, post = k :: r).
  { rewrite N2 in P6. destruct post as [|c r]; [discriminate|]. cbn [ste_of] in P6. exists r. f_equal.
    destruct (token_eqb (tk_type c) StartTagSelfClose || token_eqb (tk_type c) StartTagClose && (tk_off c <? tk_end c)) eqn:Q; [|discriminate].
    apply Some_inj in P6. assert (Ic : In c l) by (rewrite TS; apply in_or_app; right; right; apply in_or_app; right; left; auto).
    assert (LC : tk_off c < tk_end c).
    { destruct (token_eqb (tk_type c) StartTagSelfClose) eqn:QS; [|cbn [orb] in Q; apply andb_prop in Q; lia]. apply token_eqb_eq in QS.
      destruct (doc_step U d cs l HT c Ic) as (u & v & S & _ & TK). apply scan_outcome in S; auto. rewrite <- TK in *. cbn [token_of tk_type tk_off tk_end] in *.
      inversion S; subst; cbn [finish tok tok_off pos] in *; try congruence; try lia. inversion H1; subst; cbn [finish tok tok_off pos] in *; try congruence; lia. }
    pose proof (doc_tiles U t cs l HU HT) as TL.
    apply (tiles_cover_inj l 0 (length t) c k (o - 1)); auto; lia. }
  destruct PK as (r0 & ->). assert (E : l = (pre ++ op :: ks) ++ k :: r0) by (rewrite TS, <- app_assoc; reflexivity).
  destruct (at_token n ps _ k _ items F E L C) as (pre' & mid & m & z & sc & f & r & tg & at' & X1 & X2 & X3 & X4 & X5 & X6 & X7 & X8 & X9 & X10 & Y1 & Y2 & ST & ->).
  destruct mid as [|op' mid]; [destruct (Y1 eq_refl); congruence|]. destruct (Y2 op' mid eq_refl) as [O1 O2].
  assert (E4 : l = pre' ++ op' :: mid ++ k :: r0) by (rewrite E, X1, <- app_assoc; reflexivity).
  destruct (open_unique U d cs l HD HT _ _ _ _ _ _ TS E4 P1 O1) as (<- & <- & QQ); [congruence|]. apply app_inv_tail in QQ. subst mid.
  assert (TG : tag_at t (op :: ks) = n_tag n).
  { unfold tag_at. cbn [fold_left]. unfold tag_upd at 2. rewrite P1. cbn [token_eqb]. rewrite tag_at_in, P5. destruct (tag_in t ks); reflexivity. }
  rewrite TG in ST. unfold complete_step in ST. cbn zeta in ST. rewrite X6, T, X8, KE, Nat.leb_refl in ST.
  destruct (n_tag n) as [x|]; apply Ok_inj in ST; injection ST as <- _ _; auto.
Qed.

(** ** Nothing elsewhere *)
Definition quiet (ty : token_type) : Prop :=
  match ty with
  | StartCommentTag | Comment | EndCommentTag | StartDoctypeTag | Doctype | EndDoctypeTag | Script | Styles
  | EndTagClose | StartTagSelfClose | Unknown => True
  | _ => False
  end.
Lemma silent k : In k l -> quiet (tk_type k) -> tk_off k < o <= tk_end k -> complete p = Ok [].
Proof.
  intros K Q L. destruct (found_total U d cs void roots HD HP o) as ([[n ps]|] & F); [|apply complete_none; auto].
  apply in_split in K as (l1 & l2 & E).
  destruct (complete_at U d cs void roots l HD HP HT md parts providers lang ents settings order p n ps l1 k l2 F E L)
    as (pre & mid & m & z & sc & X & R & M & S & NE & TK & _ & _ & ->).
  assert (TT : tok sc = tk_type k) by (rewrite <- TK; reflexivity).
  unfold complete_step. cbn zeta. rewrite TT. unfold answer.
  destruct (tk_type k); try contradiction; destruct (_ <? pos sc); reflexivity.
Qed.

(** ** What the proposals of attribute names write *)
Lemma followed_assign fuel : forall sc f, st sc = AfterAttributeName -> followed U d cs fuel DelimiterAssign sc = Ok f ->
  (f = true <-> next_is_eq t (pos sc)).
Proof.
  induction fuel as [|fuel IH]; intros sc f ST H; [discriminate|]. cbn [followed] in H. apply bind_ok in H as (sc' & S & H).
  apply scan_outcome in S; auto.
  assert (NO : skip_ws t (pos sc) = None -> nth_error t (pos sc) <> Some EQ -> ~ next_is_eq t (pos sc)).
  { intros W N (j & J1 & J2 & J3). destruct (Nat.eq_dec j (pos sc)) as [->|NJ]; [congruence|]. destruct (J2 (pos sc)) as (b & B1 & B2); [lia|].
    rewrite (skip_ws_none _ _ W b B1) in B2. discriminate. }
  inversion S; subst; cbn [finish tok st pos] in *; try congruence; try (destruct H0 as [H0|H0]; try destruct H0 as [[H0 _]|[H0 _]]; congruence);
    try (match type of H with (if token_eqb ?a ?b then _ else _) = _ => change (token_eqb a b) with false in H; cbv iota in H end).
  - apply Ok_inj in H. subst f. split; [discriminate|]. intros (j & J1 & _ & J2). apply nth_error_lt in J2. lia.
  - inversion H1; subst; try congruence. specialize (NO H4 H5).
    assert (F : Ok (token_eqb (tok sc') DelimiterAssign) = Ok f /\ token_eqb (tok sc') DelimiterAssign = false).
    { inversion H2; subst; cbn [finish tok] in *; auto. cbn [set_st pos] in *. congruence. }
    destruct F as [F1 F2]. rewrite F2 in F1. apply Ok_inj in F1. subst f. split; [discriminate|]. intros Q. contradiction.
  - change (token_eqb Whitespace Whitespace) with true in H. cbv iota in H. apply IH in H; auto. rewrite H. cbn [finish pos].
    apply skip_ws_some in H1 as (A & B & C & D). split; intros (j & J1 & J2 & J3).
    + exists j. split; [lia|]. split; auto. intros i I. destruct (Nat.lt_ge_cases i e); [apply C; lia|apply J2; lia].
    + exists j. assert (e <= j).
      { destruct (Nat.le_gt_cases e j); auto. destruct (C j) as (b & B1 & B2); try lia. rewrite J3 in B1. injection B1 as <-. discriminate. }
      split; auto. split; auto. intros i I. apply J2. lia.
  - apply Ok_inj in H. subst f. split; auto. intros _. exists (pos sc). split; auto. split; auto. intros; lia.
Qed.
Lemma replaced fuel : forall limit i, limit <= length t -> length t - i <= fuel ->
  let e := replace_end_from t fuel limit i in
  i <= e /\ (e <= limit \/ e = i) /\ (forall j, i <= j < e -> exists c, nth_error t j = Some c /\ c <> LT /\ (c < 128)%N) /\
  (limit <= e \/ exists c, nth_error t e = Some c /\ (c = LT \/ (128 <= c)%N)).
Proof.
  induction fuel as [|fuel IH]; intros limit i L F; cbn [replace_end_from]; cbn zeta.
  - split; [lia|]. split; [auto|]. split; [intros; lia|]. left. lia.
  - destruct (i <? limit) eqn:Q.
    + destruct (nth_error t i) as [c|] eqn:N; [|apply nth_error_None in N; lia]. unfold get1. rewrite N. destruct (c <? 128)%N eqn:A.
      * destruct (c =? 60)%N eqn:B.
        -- split; [lia|]. split; [auto|]. split; [intros; lia|]. right. exists c. split; auto. left. unfold LT. lia.
        -- destruct (IH limit (i + 1) L ltac:(lia)) as (I1 & I2 & I3 & I4). split; [lia|]. split; [lia|]. split; auto.
           intros j J. destruct (Nat.eq_dec j i) as [->|]; [exists c; split; auto; unfold LT; lia|]. apply I3. lia.
      * split; [lia|]. split; [auto|]. split; [intros; lia|]. right. exists c. split; auto. right. lia.
    + split; [lia|]. split; [auto|]. split; [intros; lia|]. left. lia.
Qed.
Lemma data_texts ex : Forall (fun e : str * str => e = (data_prefix, data_prefix ++ bs "$1=""$2""") \/ (fst e <> data_prefix /\ snd e = fst e ++ bs "=""$1""" /\ is_prefix data_prefix (fst e) = true))
  (data_attrs roots ex).
Proof.
  unfold data_attrs. generalize (flat_map all_attr_names roots). intros ns.
  assert (G : forall m : list (str * str), Forall (fun e : str * str => e = (data_prefix, data_prefix ++ bs "$1=""$2""") \/ (fst e <> data_prefix /\ snd e = fst e ++ bs "=""$1""" /\ is_prefix data_prefix (fst e) = true)) m ->
     assoc data_prefix m <> None ->
     Forall (fun e => e = (data_prefix, data_prefix ++ bs "$1=""$2""") \/ (fst e <> data_prefix /\ snd e = fst e ++ bs "=""$1""" /\ is_prefix data_prefix (fst e) = true)) (fold_left (add_data ex) ns m)).
  { induction ns as [|x ns IH]; intros m F A; cbn [fold_left]; auto. apply IH.
    - unfold add_data. match goal with |- context [if ?b then _ else _] => destruct b eqn:Q end; auto. constructor; auto. right. cbn [fst snd]. 
      apply andb_prop in Q as [Q _]. apply andb_prop in Q as [Q1 Q]. split; [intros ->|auto]. destruct (assoc data_prefix m) as [u|]; [cbn in Q; discriminate Q|congruence].
    - unfold add_data. match goal with |- context [if ?b then _ else _] => destruct b eqn:Q end; auto. rewrite assoc_cons. destruct (beq data_prefix x); [discriminate|auto]. }
  apply G; [constructor; auto|]. rewrite assoc_cons, beq_refl. discriminate.
Qed.
Lemma new_attrs_in L : forall ex m e, new_attrs ex L = (m, e) -> incl m L.
Proof.
  induction L as [|a L IH]; intros ex m e H; cbn [new_attrs] in H; [injection H as <- _; intros x []|].
  destruct (match assoc (a_name a) ex with Some b => b | None => false end).
  - apply IH in H. intros x X. right. auto.
  - destruct (new_attrs ((a_name a, true) :: ex) L) as [m' e'] eqn:Q. injection H as <- _. apply IH in Q. intros x [<-|X]; [left; auto|right; auto].
Qed.
Lemma name_edits n tag a b items : a <= length t -> b <= length t -> 
  attr_name_items U d cs md providers lang settings order roots o n tag a b = Ok items -> (forall m, Permutation (order m) m) ->
  exists e value named data, items = named ++ data /\
    e = replace_end_from t (length t) b o /\
    (next_is_eq t b -> value = []) /\
    (~ next_is_eq t b -> value = match the_quotes settings with QNone => bs "=$1" | QSingle => bs "='$1'" | QDouble => bs "=""$1""" end) /\
    (forall i, In i named -> exists q x y, in_use providers lang settings q /\ tag = Some x /\ In y (pv_attributes q x) /\
       ci_label i = a_name y /\
       (let v := if match a_set y with Some s => beq s (bs "v") | None => false end then [] else value in
        ci_edit i = Some (range_at d (Nat.min a o) e, a_name y ++ v) /\ (ci_command i = true <-> v <> [] /\ (a_set y <> None \/ a_name y = bs "style"))) /\
       ci_format i = Some FSnippet /\ (ci_kind i = Some KFunction <-> a_set y = Some (bs "handler")) /\
       ci_doc i = as_doc (generate_documentation (a_desc y) (a_refs y) true true md)) /\
    (forall i, In i data -> is_prefix data_prefix (ci_label i) = true /\ i = mkItem (ci_label i) (Some KValue) None None (Some (range_at d (Nat.min a o) e,
       if beq (ci_label i) data_prefix then data_prefix ++ bs "$1=""$2""" else ci_label i ++ bs "=""$1""")) (Some FSnippet) false).
Proof.
  intros LA LB H PO. unfold attr_name_items in H. apply bind_ok in H as (cur & CU & H). apply bind_ok in H as (f & FO & H).
  apply bind_ok in H as (pr & PR & H). apply Ok_inj in H. apply followed_assign in FO; auto. cbn [scanner_new pos] in FO.
  eexists _, (if f : bool then [] else match the_quotes settings with QNone => bs "=$1" | QSingle => bs "='$1'" | QDouble => bs "=""$1""" end), _, _.
  split; [symmetry; exact H|]. split; [reflexivity|]. split; [|split; [|split]].
  - intros Q. apply FO in Q. rewrite Q. reflexivity.
  - intros Q. destruct f; [elim Q; apply FO; auto|]. reflexivity.
  - intros i I. apply in_map_iff in I as (y & <- & Y).
    assert (X : exists x L, tag = Some x /\ pr = new_attrs ((cur, false) :: map (fun x => (x, true)) (attribute_names n)) L /\
       forall y, In y L -> exists q, in_use providers lang settings q /\ In y (pv_attributes q x)).
    { destruct (used providers lang settings) as [|q us] eqn:EU; [apply Ok_inj in PR; subst pr; destruct Y|].
      destruct tag as [x|]; [|discriminate]. apply Ok_inj in PR. exists x. eexists. split; auto. split; [symmetry; exact PR|].
      intros y' Y'. apply in_flat_map in Y' as (q' & Q & Y'). exists q'. rewrite <- used_in, EU. auto. }
    destruct X as (x & L & TX & PX & QX). destruct pr as [m ex]. symmetry in PX. apply new_attrs_in in PX. destruct (QX y (PX y Y)) as (q & Q1 & Q2).
    exists q, x, y. split; auto. split; auto. split; auto. split; [reflexivity|]. unfold attr_item. cbn [ci_edit ci_command ci_format ci_kind ci_doc]. unfold replace_range.
    split; [|split; [reflexivity|split; [|reflexivity]]].
    + assert (ST : forall c, negb c && (is_some (a_set y) || beq (a_name y) (bs "style")) = true <-> c = false /\ (a_set y <> None \/ a_name y = bs "style")).
      { intros c. rewrite andb_true_iff, negb_true_iff, orb_true_iff, beq_eq. destruct (a_set y); cbn [is_some]; intuition congruence. }
      cbn zeta. rewrite ST. destruct (match a_set y with Some s => beq s (bs "v") | None => false end); cbn [orb]; [rewrite app_nil_r; intuition congruence|].
      destruct f; [rewrite app_nil_r; intuition congruence|]. split; [destruct (the_quotes settings); reflexivity|].
      destruct (the_quotes settings); (split; intros [_ Q]; (split; [|exact Q]); (discriminate || reflexivity)).
    + destruct (a_set y) as [s|]; [|split; discriminate]. destruct (beq s (bs "handler")) eqn:B; [apply beq_eq in B; subst; split; reflexivity|].
      split; [discriminate|]. intros E. apply Some_inj in E. subst s. rewrite beq_refl in B. discriminate.
  - intros i I. apply in_map_iff in I as (e & <- & Y). apply (Permutation_in _ (PO _)) in Y. pose proof (data_texts (snd pr)) as DT.
    rewrite Forall_forall in DT. apply DT in Y. unfold data_item. cbn [ci_edit ci_label ci_format]. unfold replace_range.
    destruct Y as [->|(Y1 & Y2 & Y3)]; cbn [fst snd]; [rewrite beq_refl; split; reflexivity|]. split; [auto|]. rewrite Y2.
    destruct (beq (fst e) data_prefix) eqn:Q; auto. apply beq_eq in Q. contradiction.
Qed.
End Proposals.

(** C69: right behind a '<' the doctype, in the first line only, then the tags of the providers in use, then
    the end tag of the innermost element around that is still open. *)
Theorem C69_open_bracket : forall U d cs void roots l md parts providers lang ents settings order p k items,
  textdoc_ok d -> parse U (d_text d) cs void = Ok roots -> doc_tokens U (d_text d) cs = Ok l ->
  In k l -> tk_type k = StartTagOpen -> tk_end k = offset_at d p ->
  do_complete U d cs md parts providers lang ents settings order roots p = Ok items ->
  let o := offset_at d p in
  exists n e doctype tags close, In n (doc_nodes roots) /\ n_start n = tk_off k /\ name_from U (d_text d) o e /\
    items = doctype ++ tags ++ close /\
    (line p = 0 -> exists i, doctype = [i] /\ ci_label i = bs "!DOCTYPE" /\ ci_edit i = Some (range_at d o e, bs "!DOCTYPE html>") /\ ci_format i = Some FPlain /\ ci_command i = false /\
       ci_doc i = Some (DocString (bs "A preamble for an HTML document."))) /\
    (line p <> 0 -> doctype = []) /\
    all_tags d providers lang settings o e tags /\
    (forall y x, nearest roots o (inside n) y x -> exists i, close = [i] /\ closes d o (n_start y) o e x i) /\
    ((forall y x, ~ nearest roots o (inside n) y x) -> close = []).
Proof.
  intros U d cs void roots l md parts providers lang ents settings order p k items HD HP HT K T KE C o.
  destruct (behind_open U d cs void roots l HD HP HT md parts providers lang ents settings order p k items K T KE C)
    as (n & ps & e & dt & tags & close & I & N & F & NF & LE & OO & -> & -> & -> & CL).
  exists n, e. eexists _, _, _. split; [exact I|]. split; [exact N|]. split; [exact NF|]. split; [reflexivity|]. split; [|split; [|split]].
  - intros L0. rewrite L0. cbn [Nat.eqb]. eexists. split; [reflexivity|]. split; [reflexivity|]. unfold doctype_item. cbn [ci_edit]. unfold replace_range.
    rewrite Nat.min_id. auto.
  - intros L0. destruct (line p =? 0) eqn:Q; [|reflexivity]. apply Nat.eqb_eq in Q. contradiction.
  - apply open_tags_all. unfold o. lia.
  - destruct (close_tag_closes U d cs void roots HD HP md providers lang ents settings order p n ps (offset_at d p) true e close ltac:(lia) LE F CL) as [A B]. auto.
Qed.
Print Assumptions C69_open_bracket.

(** In the white space between a '<' and the name, the same without the doctype, for the text from that
    white space on. *)
Theorem C69_open_space : forall U d cs void roots l md parts providers lang ents settings order p k items,
  textdoc_ok d -> parse U (d_text d) cs void = Ok roots -> doc_tokens U (d_text d) cs = Ok l ->
  In k l -> tk_type k = Whitespace -> tk_state k = AfterOpeningStartTag -> tk_off k < offset_at d p <= tk_end k ->
  do_complete U d cs md parts providers lang ents settings order roots p = Ok items ->
  let o := offset_at d p in
  exists n e tags close, start_tag_at roots n o /\ (tk_end k = o -> name_from U (d_text d) o e) /\ (tk_end k <> o -> e = o) /\
    items = tags ++ close /\ all_tags d providers lang settings (tk_off k) e tags /\
    (forall y x, nearest roots o (inside n) y x -> exists i, close = [i] /\ closes d o (n_start y) (tk_off k) e x i) /\
    ((forall y x, ~ nearest roots o (inside n) y x) -> close = []).
Proof.
  intros U d cs void roots l md parts providers lang ents settings order p k items HD HP HT K T S9 L C o. apply in_split in K as (l1 & l2 & E).
  destruct (behind_open_space U d cs void roots l HD HP HT md parts providers lang ents settings order p l1 k l2 items E T S9 L C)
    as (n & ps & e & tags & close & SA & F & N1 & N2 & LE & L1 & -> & -> & CL).
  exists n, e. eexists _, _. split; [exact SA|]. split; [exact N1|]. split; [exact N2|]. split; [reflexivity|].
  split; [apply open_tags_all; lia|].
  destruct (close_tag_closes U d cs void roots HD HP md providers lang ents settings order p n ps (tk_off k) true e close ltac:(lia) LE F CL) as [A B]. auto.
Qed.
Print Assumptions C69_open_space.

(** In the name of an end tag, and in the white space in front of it, the end tag of the innermost element
    still open, in place of the '/' and what follows it up to the end of the name or the cursor. When none is
    open, the end tags of the providers in use. *)
Theorem C69_end_tag_name : forall U d cs void roots l md parts providers lang ents settings order p k n ps items,
  textdoc_ok d -> parse U (d_text d) cs void = Ok roots -> doc_tokens U (d_text d) cs = Ok l ->
  In k l -> tk_type k = EndTag \/ (tk_type k = Whitespace /\ tk_state k = AfterOpeningEndTag) ->
  tk_off k < offset_at d p <= tk_end k -> find_node_before roots (offset_at d p) = Ok (Some (n, ps)) ->
  do_complete U d cs md parts providers lang ents settings order roots p = Ok items ->
  let o := offset_at d p in let t := d_text d in let around m := m = n \/ inside n m in
  exists a e, 1 <= a < tk_off k /\ nth_error t (a - 1) = Some LT /\ nth_error t a = Some SLASH /\
    (forall i, a < i < tk_off k -> exists b, nth_error t i = Some b /\ is_ws b = true) /\
    (tk_type k = EndTag -> e = tk_end k) /\ (tk_type k = Whitespace -> e = o) /\
    (forall y x, nearest roots o around y x -> exists i, items = [i] /\ closes d o (n_start y) a e x i) /\
    ((forall y x, ~ nearest roots o around y x) -> forall x doc, In (x, doc) (map (fun i => (ci_label i, ci_doc i)) items) <->
       exists q td, in_use providers lang settings q /\ In td (pv_tags q) /\ x = bs "/" ++ t_name td /\
         doc = as_doc (generate_documentation (t_desc td) (t_refs td) true true md)).
Proof.
  intros U d cs void roots l md parts providers lang ents settings order p k n ps items HD HP HT K TY L F C o t around. apply in_split in K as (l1 & l2 & E).
  destruct (in_end_tag U d cs void roots l HD HP HT md parts providers lang ents settings order p l1 k l2 n ps items E L F TY C) as (a & A1 & A2 & A3 & A4 & CL).
  assert (TL : tk_end k <= length t).
  { pose proof (doc_tiles U t cs l (do_utf8 d HD) HT) as TL. rewrite E in TL. apply (tiles_bounds _ _ _ k) in TL; [lia|apply in_elt]. }
  exists a, (if token_eqb (tk_type k) EndTag then tk_end k else o). split; [auto|]. split; [auto|]. split; [auto|]. split; [auto|].
  split; [intros ->; reflexivity|]. split; [intros ->; reflexivity|]. unfold o in *.
  destruct (close_tag_closes U d cs void roots HD HP md providers lang ents settings order p n ps a false (if token_eqb (tk_type k) EndTag then tk_end k else offset_at d p) items ltac:(lia) ltac:(destruct (token_eqb _ _); unfold t in *; lia) F CL) as [A B].
  split; [exact A|]. intros NO x doc. rewrite (B NO). rewrite in_map_iff. split.
  - intros (i & X & I). apply in_flat_map in I as (q & Q & I). apply in_map_iff in I as (td & <- & I). injection X as <- <-. exists q, td. rewrite <- used_in. auto.
  - intros (q & td & Q & I & -> & ->). exists (end_tag_item md td). split; [reflexivity|]. apply in_flat_map. exists q. rewrite used_in.
    split; auto. apply in_map. auto.
Qed.
Print Assumptions C69_end_tag_name.

(** In '</': as in the name, with the name that follows, if one does. *)
Theorem C69_end_open : forall U d cs void roots l md parts providers lang ents settings order p k n ps items,
  textdoc_ok d -> parse U (d_text d) cs void = Ok roots -> doc_tokens U (d_text d) cs = Ok l ->
  In k l -> tk_type k = EndTagOpen -> tk_off k < offset_at d p <= tk_end k -> find_node_before roots (offset_at d p) = Ok (Some (n, ps)) ->
  do_complete U d cs md parts providers lang ents settings order roots p = Ok items ->
  let o := offset_at d p in let around m := m = n \/ inside n m in
  exists e, (o = tk_end k -> name_from U (d_text d) o e) /\ (o <> tk_end k -> e = o) /\
    (forall y x, nearest roots o around y x -> exists i, items = [i] /\ closes d o (n_start y) (tk_off k + 1) e x i) /\
    ((forall y x, ~ nearest roots o around y x) -> forall x doc, In (x, doc) (map (fun i => (ci_label i, ci_doc i)) items) <->
       exists q td, in_use providers lang settings q /\ In td (pv_tags q) /\ x = bs "/" ++ t_name td /\
         doc = as_doc (generate_documentation (t_desc td) (t_refs td) true true md)).
Proof.
  intros U d cs void roots l md parts providers lang ents settings order p k n ps items HD HP HT K TY L F C o around.
  destruct (end_open_token U d cs l HD HT k K TY) as [KE KS]. assert (K' := K). apply in_split in K as (l1 & l2 & E).
  destruct (at_token U d cs void roots l HD HP HT md parts providers lang ents settings order p n ps l1 k l2 items F E L C)
    as (pre & mid & m & z & sc & f & r & tg & at' & X1 & X2 & X3 & X4 & X5 & X6 & X7 & X8 & X9 & X10 & _ & _ & ST & ->).
  unfold complete_step in ST. cbn zeta in ST. rewrite X6, TY, X8 in ST. fold o in ST, L. replace (o <=? tk_end k) with true in ST by lia.
  apply bind_ok in ST as (e & N & ST). apply bind_ok in ST as (i & CL & ST). apply Ok_inj in ST. injection ST as <- _ _.
  destruct (next_end_name U d cs HD ents order p sc f e X5 ltac:(congruence) N) as (A1 & A2 & A3). fold o in A1, A2, A3.
  exists e. split; [intros Q; apply A1; congruence|]. split; [intros Q; apply A2; congruence|].
  rewrite X7 in CL.
  destruct (close_tag_closes U d cs void roots HD HP md providers lang ents settings order p n ps (tk_off k + 1) false e i ltac:(fold o; lia) ltac:(lia) F CL) as [A B].
  split; [exact A|]. intros NO x doc. rewrite (B NO). rewrite in_map_iff. split.
  - intros (j & X & I). apply in_flat_map in I as (q & Q & I). apply in_map_iff in I as (td & <- & I). injection X as <- <-. exists q, td. rewrite <- used_in. auto.
  - intros (q & td & Q & I & -> & ->). exists (end_tag_item md td). split; [reflexivity|]. apply in_flat_map. exists q. rewrite used_in.
    split; auto. apply in_map. auto.
Qed.
Print Assumptions C69_end_open.

(** In text behind the first tag: what the participants answer, and, if the cursor is behind '&' and letters
    and digits only, every entity with a ';', for the text from the '&' to the cursor. *)
Definition reference_at (t : str) (o j : nat) : Prop :=
  j < o /\ nth_error t j = Some 38%N /\ forall i, j < i < o -> exists c, nth_error t i = Some c /\ alnum c.
Theorem C69_text : forall U d cs void roots l md parts providers lang ents settings order p k items,
  textdoc_ok d -> parse U (d_text d) cs void = Ok roots -> doc_tokens U (d_text d) cs = Ok l ->
  In k l -> tk_type k = Content \/ (tk_type k = Whitespace /\ tk_state k = WithinContent) -> tk_off k < offset_at d p <= tk_end k ->
  (exists m, In m (doc_nodes roots) /\ n_start m < offset_at d p) ->
  do_complete U d cs md parts providers lang ents settings order roots p = Ok items ->
  exists found, items = flat_map cp_content parts ++ found /\
    ((forall j, ~ reference_at (d_text d) (offset_at d p) j) -> found = []) /\
    (forall j, reference_at (d_text d) (offset_at d p) j ->
       offset_at d p - j <= character p /\
       (forall i, In i found -> ci_format i = Some FPlain /\ ci_command i = false /\ ci_kind i = Some KKeyword) /\
       forall x e doc, In (x, e, doc) (map (fun i => (ci_label i, ci_edit i, ci_doc i)) found) <->
         exists y z, In (y ++ bs ";", z) ents /\ x = bs "&" ++ y ++ bs ";" /\ doc = Some (DocString (bs "Character entity representing '" ++ encode z)) /\
           e = Some (mkRange (mkPos (line p) (character p - (offset_at d p - j))) p, bs "&" ++ y ++ bs ";")).
Proof.
  intros U d cs void roots l md parts providers lang ents settings order p k items HD HP HT K TY L (m & M & LM) C. apply in_split in K as (l1 & l2 & E).
  destruct (found_total U d cs void roots HD HP (offset_at d p)) as ([[n ps]|] & F); [|apply (found_none U d cs void roots HD HP _ F m) in M; lia].
  pose proof (in_text U d cs void roots l HD HP HT md parts providers lang ents settings order p l1 k l2 n ps items E L F TY C) as CI.
  set (o := offset_at d p) in *. set (t := d_text d) in *. unfold content_items in CI. apply bind_ok in CI as (fo & EI & CI). apply Ok_inj in CI.
  exists fo. split; [auto|]. unfold entity_items in EI. fold t in EI. destruct (alnum_left_spec t o) as (A1 & A2 & A3). set (w := alnum_left t o) in *.
  apply bind_ok in EI as (c0 & C0 & EI). unfold usub in C0. destruct (o - w <=? character p) eqn:Q0; [|discriminate]. apply Ok_inj in C0.
  assert (RF : forall j, reference_at t o j -> w = Datatypes.S j).
  { intros j (J1 & J2 & J3). destruct (Nat.lt_trichotomy w (j + 1)) as [Q|[Q|Q]]; [|lia|].
    - exfalso. specialize (A2 j ltac:(lia)). apply alnum_at_spec in A2 as (c & N & AN). rewrite J2 in N. injection N as <-. unfold alnum in AN. lia.
    - exfalso. destruct w as [|w'] eqn:EW; [lia|]. specialize (A3 w' eq_refl). destruct (J3 w') as (c & N & AN); [lia|].
      assert (alnum_at t w' = true) by (apply alnum_at_spec; eauto). congruence. }
  assert (RB : forall j, w = Datatypes.S j -> nth_error t j = Some 38%N -> reference_at t o j).
  { intros j J N. split; [lia|]. split; auto. intros i I. apply alnum_at_spec. apply A2. lia. }
  destruct w as [|w'].
  { apply Ok_inj in EI. subst fo. split; auto. intros j J. apply RF in J. discriminate. }
  assert (NOT : nth_error t w' <> Some 38%N -> (forall j, ~ reference_at t o j)).
  { intros N j J. assert (E' := RF j J). injection E' as ->. destruct J as (_ & J & _). contradiction. }
  destruct (nth_error t w') as [b|] eqn:N.
  2:{ apply Ok_inj in EI. subst fo. split; auto. intros j J. elim (NOT ltac:(discriminate) j J). }
  destruct (b =? 38)%N eqn:B.
  2:{ apply Ok_inj in EI. subst fo. split; auto. intros j J. elim (NOT ltac:(intros X; injection X as ->; discriminate) j J). }
  assert (EB : b = 38%N) by lia. subst b. split; [intros NO; elim (NO w'); apply RB; auto|].
  intros j J. assert (E' := RF j J). injection E' as ->. apply bind_ok in EI as (c1 & C1 & EI). unfold usub in C1. destruct (1 <=? c0) eqn:Q1; [|discriminate].
  apply Ok_inj in C1. apply Ok_inj in EI. split; [lia|]. subst fo. split.
  { intros i I. apply in_map_iff in I as (u & <- & _). repeat split. }
  intros x e doc.
  assert (EC : c1 = character p - (o - j)) by lia. rewrite EC. rewrite in_map_iff. split.
  - intros (i & X & I). apply in_map_iff in I as ([u v] & <- & I). apply filter_In in I as [I EW]. cbn [fst] in EW.
    unfold entity_item in X. cbn [ci_label ci_edit ci_doc fst snd] in X. apply pair_equal_spec in X as [X X3]. apply pair_equal_spec in X as [X1 X2].
    unfold ends_with in EW. destruct (rev u) as [|z0 r] eqn:RV; [discriminate|].
    assert (u = rev r ++ [z0]) by (rewrite <- (rev_involutive u), RV; reflexivity). assert (z0 = 59%N) by lia. subst z0 u.
    exists (rev r), v. change (bs ";") with [59%N]. subst x e doc. auto.
  - intros (y & z & I & -> & -> & ->). exists (entity_item (mkRange (mkPos (line p) (character p - (o - j))) p) (y ++ bs ";", z)).
    split; [reflexivity|]. apply in_map. apply filter_In. split; auto. cbn [fst]. unfold ends_with. change (bs ";") with [59%N]. rewrite rev_unit. reflexivity.
Qed.
Print Assumptions C69_text.

(** Right behind the '>' of a start tag: the end tag of that element, behind the cursor; nothing for a void
    element, or if the settings say so. *)
Theorem C69_start_tag_end : forall U d cs void roots l md parts providers lang ents settings order p k items,
  textdoc_ok d -> parse U (d_text d) cs void = Ok roots -> doc_tokens U (d_text d) cs = Ok l ->
  In k l -> tk_type k = StartTagClose -> tk_off k < offset_at d p <= tk_end k ->
  do_complete U d cs md parts providers lang ents settings order roots p = Ok items ->
  exists n, In n (doc_nodes roots) /\ n_ste n = Some (offset_at d p) /\
    (items <> [] <-> exists x, n_tag n = Some x /\ is_void_element x (get_void_elements providers lang) = false /\
       forall s, settings = Some s -> cs_hide_auto s = false) /\
    (forall x, n_tag n = Some x -> items <> [] -> exists i, items = [i] /\ ci_label i = bs "</" ++ x ++ bs ">" /\
       ci_edit i = Some (range_at d (offset_at d p) (offset_at d p), bs "$0</" ++ x ++ bs ">") /\
       ci_format i = Some FSnippet /\ ci_filter i = Some (bs "</" ++ x ++ bs ">") /\ ci_command i = false).
Proof.
  intros U d cs void roots l md parts providers lang ents settings order p k items HD HP HT K T L C.
  destruct (behind_close U d cs void roots l HD HP HT md parts providers lang ents settings order p k items K T L C) as (n & I & S & E).
  exists n. split; [auto|]. split; [auto|]. destruct (n_tag n) as [x|]; [|subst items; split; [split; [congruence|intros (x & X & _); discriminate]|intros x X; discriminate]].
  unfold auto_close_items, void_list in E.
  destruct settings as [s|].
  - destruct (cs_hide_auto s) eqn:HA.
    { subst items. split; [split; [intros Q; elim Q; reflexivity|]|intros q1 q2 Q; elim Q; reflexivity]. intros (x' & _ & _ & Q). rewrite (Q s eq_refl) in HA. discriminate. }
    destruct (is_void_element x (get_void_elements providers lang)) eqn:V.
    { subst items. split; [split; [intros Q; elim Q; reflexivity|]|intros q1 q2 Q; elim Q; reflexivity]. intros (x' & X & V' & _). apply Some_inj in X. subst x'. rewrite V in V'. discriminate. }
    subst items. split; [split; [|discriminate]|].
    + intros _. exists x. split; auto. split; auto. intros s' X. injection X as <-. auto.
    + intros x' X _. injection X as <-. eexists. split; [reflexivity|]. repeat split.
  - destruct (is_void_element x (get_void_elements providers lang)) eqn:V.
    { subst items. split; [split; [intros Q; elim Q; reflexivity|]|intros q1 q2 Q; elim Q; reflexivity]. intros (x' & X & V' & _). apply Some_inj in X. subst x'. rewrite V in V'. discriminate. }
    subst items. split; [split; [|discriminate]|].
    + intros _. exists x. split; auto. split; auto. discriminate.
    + intros x' X _. injection X as <-. eexists. split; [reflexivity|]. repeat split.
Qed.
Print Assumptions C69_start_tag_end.

(** In comments, doctypes, scripts and style sheets, behind the '>' of end tags and '/>', nothing. *)
Theorem C69_silent : forall U d cs void roots l md parts providers lang ents settings order p k,
  textdoc_ok d -> parse U (d_text d) cs void = Ok roots -> doc_tokens U (d_text d) cs = Ok l ->
  In k l -> quiet (tk_type k) -> tk_off k < offset_at d p <= tk_end k ->
  do_complete U d cs md parts providers lang ents settings order roots p = Ok [].
Proof.
  intros U d cs void roots l md parts providers lang ents settings order p k HD HP HT K Q L.
  eapply silent; eauto.
Qed.
Print Assumptions C69_silent.

(** What the proposals of attribute names (C42) write: the name and, unless the attribute has no value or a
    '=' follows, the '=' and a place for the value in the quotes of the settings. *)
Theorem C69_attribute_edits : forall U d cs void roots l md parts providers lang ents settings order p k items,
  textdoc_ok d -> parse U (d_text d) cs void = Ok roots -> doc_tokens U (d_text d) cs = Ok l ->
  (forall m, Permutation (order m) m) -> In k l -> at_attribute_name k (offset_at d p) ->
  do_complete U d cs md parts providers lang ents settings order roots p = Ok items ->
  let o := offset_at d p in let t := d_text d in
  exists n a e behind value named data, start_tag_at roots n o /\ items = named ++ data /\
    (tk_type k = AttributeName -> a = tk_off k /\ behind = tk_end k /\ o <= e <= tk_end k /\
       (forall j, o <= j < e -> exists c, nth_error t j = Some c /\ c <> LT /\ (c < 128)%N) /\
       (e = tk_end k \/ exists c, nth_error t e = Some c /\ (c = LT \/ (128 <= c)%N))) /\
    (tk_type k = Whitespace -> a = o /\ behind = o /\ e = o) /\
    (next_is_eq t behind -> value = []) /\
    (~ next_is_eq t behind -> value = match settings with
       | Some s => match cs_quotes s with QNone => bs "=$1" | QSingle => bs "='$1'" | QDouble => bs "=""$1""" end
       | None => bs "=""$1"""
       end) /\
    (forall i, In i named -> exists q x y, in_use providers lang settings q /\ n_tag n = Some x /\ In y (pv_attributes q x) /\
       ci_label i = a_name y /\ exists v, (a_set y = Some (bs "v") -> v = []) /\ (a_set y <> Some (bs "v") -> v = value) /\
       ci_edit i = Some (range_at d a e, a_name y ++ v) /\ ci_format i = Some FSnippet /\
       (ci_command i = true <-> v <> [] /\ (a_set y <> None \/ a_name y = bs "style")) /\
       (ci_kind i = Some KFunction <-> a_set y = Some (bs "handler")) /\
       ci_doc i = as_doc (generate_documentation (a_desc y) (a_refs y) true true md)) /\
    (forall i, In i data -> is_prefix (bs "data-") (ci_label i) = true /\ exists w, (ci_label i = bs "data-" -> w = bs "data-$1=""$2""") /\ (ci_label i <> bs "data-" -> w = ci_label i ++ bs "=""$1""") /\
       i = mkItem (ci_label i) (Some KValue) None None (Some (range_at d a e, w)) (Some FSnippet) false).
Proof.
  intros U d cs void roots l md parts providers lang ents settings order p k items HD HP HT PO K [L AP] C o t. assert (TK : tk_end k <= length t).
  { pose proof (doc_tiles U t cs l (do_utf8 d HD) HT) as TL. apply (tiles_bounds _ _ _ k) in TL; [lia|auto]. }
  apply in_split in K as (l1 & l2 & E).
  destruct (names_at U d cs void roots l HD HP HT md parts providers lang ents settings order p l1 k l2 E L AP) as (n & ks & I & N1 & N2 & N3 & _ & _ & _ & CC).
  fold o in L, N2, CC.
  assert (SA : start_tag_at roots n o) by (split; [auto|]; split; [lia|]; split; [auto|]; intros s S; specialize (N3 s S); lia).
  rewrite C in CC. cbn zeta in CC.
  assert (X : exists a b, attr_name_items U d cs md providers lang settings order roots o n (n_tag n) a b = Ok items /\ a <= length t /\ b <= length t /\
     (tk_type k = AttributeName -> a = tk_off k /\ b = tk_end k) /\ (tk_type k = Whitespace -> a = tk_end k /\ b = o)).
  { destruct AP as [AP|[AP _]]; rewrite AP in CC; cbn [token_eqb] in CC.
    - exists (tk_off k), (tk_end k). rewrite AP. repeat (split; auto; try lia); discriminate.
    - exists (tk_end k), o. rewrite AP. repeat (split; auto; try lia); discriminate. }
  destruct X as (a & b & NI & LA & LB & XA & XW).
  destruct (name_edits U d cs roots HD md providers lang ents settings order p n (n_tag n) a b items LA LB NI PO)
    as (e & value & named & data & IT & EE & V1 & V2 & NM & DT). fold o in EE, NM, DT. fold t in EE, V1, V2.
  exists n, (Nat.min a o), e, b, value, named, data. split; [auto|]. split; [auto|].
  destruct (replaced d ents order p (length t) b o LB ltac:(fold t; lia)) as (R1 & R2 & R3 & R4). fold t in R1, R2, R3, R4. rewrite <- EE in R1, R2, R3, R4.
  split; [|split; [|split; [auto|split; [|split]]]].
  - intros TY. destruct (XA TY) as [-> ->]. split; [lia|]. split; [auto|]. split; [lia|]. split; [auto|]. destruct R4 as [R4|R4]; [left; lia|auto].
  - intros TY. destruct (XW TY) as [-> ->]. split; [lia|]. split; [auto|]. destruct R2; lia.
  - intros Q. rewrite (V2 Q). unfold the_quotes. destruct settings; auto.
  - intros i Ii. destruct (NM i Ii) as (q & x & y & Q1 & Q2 & Q3 & Q4 & [Q5 Q6] & Q7 & Q8 & Q9). exists q, x, y. split; [auto|]. split; [auto|]. split; [auto|]. split; [auto|].
    eexists. split; [|split; [|split; [exact Q5|split; [exact Q7|split; [exact Q6|split; [exact Q8|exact Q9]]]]]].
    + intros ->. rewrite beq_refl. reflexivity.
    + intros NV. destruct (a_set y) as [s|]; auto. destruct (beq s (bs "v")) eqn:B; auto. apply beq_eq in B. subst s. congruence.
  - intros i Ii. destruct (DT i Ii) as [DF DE]. split; [exact DF|]. eexists. split; [|split; [|exact DE]].
    + intros ->. reflexivity.
    + intros ND. destruct (beq (ci_label i) data_prefix) eqn:B; auto. apply beq_eq in B. contradiction.
Qed.
Print Assumptions C69_attribute_edits.

(** ** Examples *)
Definition nl : str := [10%N].
Definition tokens_at (s : str) (o : nat) : res (list (token_type * sstate)) :=
  do l <- doc_tokens demo_unicode s false;
  Ok (map (fun k => (tk_type k, tk_state k)) (filter (fun k => (tk_off k <? o) && (o <=? tk_end k)) l)).
Example C69_open_bracket_demo :
  edits_at (bs "<") 1 = Ok [(bs "!DOCTYPE", Some (rng0 1 1, bs "!DOCTYPE html>")); (bs "p", Some (rng0 1 1, bs "p")); (bs "input", Some (rng0 1 1, bs "input"))] /\
  edits_at (bs "<div><inp") 6 = Ok [(bs "!DOCTYPE", Some (rng0 6 9, bs "!DOCTYPE html>")); (bs "p", Some (rng0 6 9, bs "p"));
     (bs "input", Some (rng0 6 9, bs "input")); (bs "/div", Some (rng0 6 9, bs "/div>"))] /\
  edits_at (bs "  <b>" ++ nl ++ bs "<") 7 = Ok [(bs "p", Some (mkRange (mkPos 1 1) (mkPos 1 1), bs "p")); (bs "input", Some (mkRange (mkPos 1 1) (mkPos 1 1), bs "input"));
     (bs "/b", Some (mkRange (mkPos 1 0) (mkPos 1 1), bs "  </b>"))] /\
  tokens_at (bs "<div><inp") 6 = Ok [(StartTagOpen, AfterOpeningStartTag)].
Proof. vm_compute. repeat split. Qed.
Example C69_open_space_demo :
  edits_at (bs "<div>< ") 7 = Ok [(bs "p", Some (rng0 6 7, bs "p")); (bs "input", Some (rng0 6 7, bs "input")); (bs "/div", Some (rng0 6 7, bs "/div>"))] /\
  tokens_at (bs "<div>< ") 7 = Ok [(Whitespace, AfterOpeningStartTag)].
Proof. vm_compute. repeat split. Qed.
Example C69_end_tag_name_demo :
  edits_at (bs "<div><p></di") 12 = Ok [(bs "/div", Some (rng0 9 12, bs "/div>"))] \/ edits_at (bs "<div><p></di") 12 = Ok [(bs "/p", Some (rng0 9 12, bs "/p>"))] /\
  edits_at (bs "<div></  ") 8 = Ok [(bs "/div", Some (rng0 6 8, bs "/div>"))] /\
  edits_at (bs "<div></div>") 8 = Ok [(bs "/p", None); (bs "/input", None)] /\
  tokens_at (bs "<div><p></di") 12 = Ok [(EndTag, WithinEndTag)] /\ tokens_at (bs "<div></  ") 8 = Ok [(Whitespace, AfterOpeningEndTag)].
Proof. right. vm_compute. repeat split. Qed.
Example C69_text_demo :
  (do l <- edits_at (bs "<p>a &am") 8; Ok (length l, existsb (fun x => beq (fst x) (bs "&amp;")) l, existsb (fun x => beq (fst x) (bs "&amp")) l,
     existsb (fun x => match snd x with Some (r, y) => beq y (bs "&amp;") && (character (r_start r) =? 5) && (character (r_end r) =? 8) | None => false end) l)) =
    Ok (1991, true, false, true) /\
  edits_at (bs "<p>a &a.m") 9 = Ok [] /\ edits_at (bs "&am") 3 = Ok [] /\
  tokens_at (bs "<p>a &am") 8 = Ok [(Content, WithinContent)].
Proof. vm_compute. repeat split. Qed.
Example C69_start_tag_end_demo :
  edits_at (bs "<p>") 3 = Ok [(bs "</p>", Some (rng0 3 3, bs "$0</p>"))] /\ (do roots <- parse demo_unicode (bs "<br>") false html5_void;
     do_complete demo_unicode (utf16_doc (bs "<br>")) false true []
       [html_provider demo_unicode (bs "demo") (mkData (Some [mkTag (bs "br") None [] None (Some true)]) None None) false]
       (bs "html") entities None (fun m => m) roots (mkPos 0 4)) = Ok [] /\
  tokens_at (bs "<p>") 3 = Ok [(StartTagClose, WithinContent)].
Proof. vm_compute. repeat split. Qed.
Example C69_silent_demo :
  edits_at (bs "<p><!-- < &am -->") 10 = Ok [] /\ edits_at (bs "<script>a < b</script>") 11 = Ok [] /\
  tokens_at (bs "<p><!-- < &am -->") 10 = Ok [(Comment, WithinComment)] /\ tokens_at (bs "<script>a < b</script>") 11 = Ok [(Script, WithinContent)].
Proof. vm_compute. repeat split. Qed.
Example C69_attribute_edits_demo :
  edits_at (bs "<input ty>") 9 = Ok [(bs "type", Some (rng0 7 9, bs "type=""$1""")); (bs "data-", Some (rng0 7 9, bs "data-$1=""$2"""))] /\
  edits_at (bs "<input ty =x>") 8 = Ok [(bs "type", Some (rng0 7 9, bs "type")); (bs "data-", Some (rng0 7 9, bs "data-$1=""$2"""))] /\
  edits_at (bs "<p data-a><input  >") 17 = Ok [(bs "type", Some (rng0 17 17, bs "type=""$1""")); (bs "data-a", Some (rng0 17 17, bs "data-a=""$1"""));
    (bs "data-", Some (rng0 17 17, bs "data-$1=""$2"""))] /\
  tokens_at (bs "<input ty>") 9 = Ok [(AttributeName, AfterAttributeName)].
Proof. vm_compute. repeat split. Qed.
