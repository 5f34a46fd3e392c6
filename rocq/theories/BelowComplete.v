(** * Completion: the rest of the text does not matter *)
From Verif Require Import SelectionRange Base Stream Scanner BaseFacts ScannerFacts ScanStep ScanProps ScanShape ScanResume
  ScanComplete ScanPanic ScanLocal Tree Parser ParseSpec ParseInv ParseOrder SelAttr NodeScan ScanCut BelowFacts TextDoc DataManager Entities
  TagServices Hover Completion MoveFacts PropEdits PropAnswers PropProposals BelowLoops.
From Coq Require Import ZifyBool ZifyNat ZifyN.

Section L.
Variables (U : unicode) (cs : bool) (b : nat) (d d' : textdoc).
Notation t := (d_text d').
Notation x := (sub t 0 b).
Hypothesis HD : textdoc_ok d.
Hypothesis HD' : textdoc_ok d'.
Hypothesis HB : Bd t b.
Hypothesis HT : d_text d = x.
Hypothesis HP : forall o, o <= b -> position_at d' o = position_at d o.
Let HU : Utf8 t := Bd_utf8 _ _ HB.
Notation both := (both U t cs b).
Notation low_get1 := (low_get1 b d d' HT).
Notation low_nth := (low_nth b d d' HT).

(** ** What follows *)
(** Behind white space there is another byte of the beginning. *)
Definition stopped (q : nat) : Prop := exists j, q <= j < b /\ (forall i, q <= i < j -> exists c, nth_error t i = Some c /\ is_ws c = true) /\
  exists c, nth_error t j = Some c /\ is_ws c = false.
Definition tag_state (s : sstate) : Prop :=
  s = AfterOpeningStartTag \/ s = AfterOpeningEndTag \/ s = WithinTag \/ s = WithinEndTag \/ s = AfterAttributeName \/ s = BeforeAttributeValue.
Lemma ws_next s e : Bd t (pos s) -> tag_state (st s) -> skip_ws t (pos s) = Some e ->
  exists r, scan U t true cs s = Ok r /\ pos r = e /\ tag_state (st r).
Proof.
  intros B T W. assert (LE : pos s < length t) by (apply skip_ws_some in W; lia).
  assert (X : exists r, outcome U t true cs s r /\ tok r = Whitespace /\ pos r = e /\ tag_state (st r)).
  { unfold tag_state in *. destruct T as [T|[T|[T|[T|[T|T]]]]].
    - eexists. split; [apply O_start_tag_ws; eauto|split; [reflexivity|split; [reflexivity|cbn; auto 10]]].
    - eexists. split; [apply O_end_tag_ws; eauto|split; [reflexivity|split; [reflexivity|cbn; auto 10]]].
    - eexists. split; [eapply O_in_tag; [exact LE|apply ET_tag; exact T|apply TO_ws; eauto]|split; [reflexivity|split; [reflexivity|cbn [finish tok pos st set_space]; rewrite T; auto 10]]].
    - eexists. split; [apply O_end_tag_ws2; eauto|split; [reflexivity|split; [reflexivity|cbn; auto 10]]].
    - eexists. split; [apply O_attr_ws; eauto|split; [reflexivity|split; [reflexivity|cbn; auto 10]]].
    - eexists. split; [apply O_value_ws; eauto|split; [reflexivity|split; [reflexivity|cbn; auto 10]]]. }
  destruct X as (r & O & K & P & S). exists r. split; auto. apply outcome_scan; auto. congruence.
Qed.
Lemma tag_stopped k s : both k s -> tag_state (st s) -> stopped (pos s).
Proof.
  intros H T. assert (NC : forall k s, both k s -> tag_state (st s) -> pos s < b).
  { intros k0 s0 H0 T0. pose proof (both_le _ _ _ _ _ _ H0). destruct (Nat.eq_dec (pos s0) b) as [E|E]; [|lia].
    unfold tag_state in T0. rewrite (both_content _ _ _ _ _ _ H0 E) in T0. repeat (destruct T0 as [T0|T0]; try discriminate). }
  pose proof (NC _ _ H T) as L. pose proof (cut_le t b HB) as LB.
  assert (NX : forall i, i < b -> exists c, nth_error t i = Some c).
  { intros i I. destruct (nth_error t i) eqn:Q; eauto. apply nth_error_None in Q. lia. }
  destruct (skip_ws t (pos s)) as [e|] eqn:W.
  - destruct (ws_next s e (both_Bd _ _ _ _ HB _ _ H) T W) as (r & R1 & R2 & R3). destruct (both_more _ _ _ _ _ _ H L) as (s2 & k2 & _ & S1 & _ & _ & _ & _ & H2).
    assert (r = s2) by (specialize (S1 true); congruence). subst s2. pose proof (NC _ _ H2 R3) as L2. apply skip_ws_some in W as (W1 & W2 & W3 & W4).
    exists e. split; [lia|]. split; [intros i I; apply W3; lia|]. destruct (NX e ltac:(lia)) as (c & C). eauto.
  - exists (pos s). split; [lia|]. split; [intros i I; lia|]. destruct (NX (pos s) L) as (c & C). exists c. split; auto. eapply skip_ws_none; eauto.
Qed.
Lemma stopped_back q q' : q <= q' -> (forall i, q <= i < q' -> exists c, nth_error t i = Some c /\ is_ws c = true) -> stopped q' -> stopped q.
Proof.
  intros L W (j & J1 & J2 & J3). exists j. split; [lia|]. split; auto. intros i I. destruct (Nat.lt_ge_cases i q') as [Q|Q]; [apply W; lia|]. apply J2. lia.
Qed.
Lemma next_low c q : stopped q -> is_ws c = false ->
  (exists j, q <= j /\ (forall i, q <= i < j -> exists b, nth_error (d_text d) i = Some b /\ is_ws b = true) /\ nth_error (d_text d) j = Some c) <->
  (exists j, q <= j /\ (forall i, q <= i < j -> exists b, nth_error t i = Some b /\ is_ws b = true) /\ nth_error t j = Some c).
Proof.
  intros (j0 & J1 & J2 & c0 & J3 & J4) C.
  assert (X : forall y j, (forall i, i < b -> nth_error y i = nth_error t i) -> q <= j -> (forall i, q <= i < j -> exists b, nth_error y i = Some b /\ is_ws b = true) -> j <= j0).
  { intros y j Y L W. destruct (Nat.lt_ge_cases j0 j) as [Q|Q]; auto. exfalso. destruct (W j0 ltac:(lia)) as (c' & C1 & C2). rewrite Y in C1 by lia. congruence. }
  split; intros (j & K1 & K2 & K3).
  - pose proof (X _ _ low_nth K1 K2) as Q. exists j. split; auto. split.
    + intros i I. rewrite <- low_nth by lia. auto.
    + rewrite <- low_nth by lia. auto.
  - pose proof (X t _ (fun i _ => eq_refl) K1 K2) as Q. exists j. split; auto. split.
    + intros i I. rewrite low_nth by lia. auto.
    + rewrite low_nth by lia. auto.
Qed.
Lemma followed_ok d0 q s ty : textdoc_ok d0 -> q <= length (d_text d0) -> s = WithinEndTag \/ (s = AfterAttributeName /\ Bd (d_text d0) q) ->
  exists f, is_followed_by U d0 cs q s ty = Ok f.
Proof.
  intros D L S. pose proof (is_followed_fuel U d0 cs D [] (fun l => l) (mkPos 0 0) q s ty L) as F.
  assert (N : np (is_followed_by U d0 cs q s ty)).
  { unfold is_followed_by. destruct S as [-> |[-> B]]; [apply followed_end|apply followed_name]; auto. }
  destruct (is_followed_by U d0 cs q s ty) as [f|e|] eqn:E; eauto; [|congruence]. exfalso. exact (N e eq_refl).
Qed.
Lemma close_low q : stopped q -> is_followed_by U d' cs q WithinEndTag EndTagClose = is_followed_by U d cs q WithinEndTag EndTagClose.
Proof.
  intros W. pose proof (low_len b d d' HB HT) as LL. pose proof (cut_le t b HB). assert (q < b) by (destruct W as (j & J & _); lia).
  destruct (followed_ok d q WithinEndTag EndTagClose HD) as (f & F); [lia|auto|]. destruct (followed_ok d' q WithinEndTag EndTagClose HD') as (f' & F'); [lia|auto|].
  rewrite F, F'. f_equal. unfold is_followed_by in *.
  pose proof (followed_close U d cs HD true [] (fun l => l) (mkPos 0 0) _ (scanner_new q _) _ eq_refl F) as A.
  pose proof (followed_close U d' cs HD' true [] (fun l => l) (mkPos 0 0) _ (scanner_new q _) _ eq_refl F') as A'.
  pose proof (next_low GT q W eq_refl) as Q. unfold next_is_gt in A, A'. cbn [scanner_new pos] in A, A'. rewrite Q, <- A' in A. destruct f, f'; auto; [|symmetry]; apply A; reflexivity.
Qed.
Lemma assign_low q : stopped q -> Bd t q -> is_followed_by U d' cs q AfterAttributeName DelimiterAssign = is_followed_by U d cs q AfterAttributeName DelimiterAssign.
Proof.
  intros W B. pose proof (low_len b d d' HB HT) as LL. pose proof (cut_le t b HB). assert (L : q < b) by (destruct W as (j & J & _); lia).
  destruct (followed_ok d q AfterAttributeName DelimiterAssign HD) as (f & F); [lia|right; split; [auto|apply (low_Bd b d d' HB HT); [lia|auto]]|].
  destruct (followed_ok d' q AfterAttributeName DelimiterAssign HD') as (f' & F'); [lia|auto|].
  rewrite F, F'. f_equal. unfold is_followed_by in *.
  pose proof (followed_assign U d cs HD true [] (fun l => l) (mkPos 0 0) _ (scanner_new q _) _ eq_refl F) as A.
  pose proof (followed_assign U d' cs HD' true [] (fun l => l) (mkPos 0 0) _ (scanner_new q _) _ eq_refl F') as A'.
  pose proof (next_low EQ q W eq_refl) as Q. unfold next_is_eq in A, A'. cbn [scanner_new pos] in A, A'. rewrite Q, <- A' in A. destruct f, f'; auto; [|symmetry]; apply A; reflexivity.
Qed.

(** ** Text around the cursor *)
Lemma word_start_low limit : forall o, o <= b -> get_word_start t limit o = get_word_start (d_text d) limit o.
Proof.
  induction o as [|o IH]; intros L; [reflexivity|]. cbn [get_word_start]. rewrite low_get1 by lia. destruct (limit <? _); [|reflexivity].
  destruct (get1 t o); [|reflexivity]. destruct (white _); [reflexivity|]. apply IH. lia.
Qed.
Lemma word_end_low limit : limit <= b -> forall f f' o, limit - o <= f -> limit - o <= f' -> get_word_end t f' limit o = get_word_end (d_text d) f limit o.
Proof.
  intros L. induction f as [|f IH]; intros f' o L1 L2.
  - cbn [get_word_end]. destruct f'; cbn [get_word_end]; [reflexivity|]. replace (o <? limit) with false by lia. reflexivity.
  - destruct f' as [|f']; cbn [get_word_end]; destruct (o <? limit) eqn:Q; try reflexivity; [lia|]. rewrite low_get1 by lia.
    destruct (get1 t o) as [c|]; [|reflexivity]. destruct (white c); [reflexivity|]. apply IH; lia.
Qed.
Lemma replace_end_low limit : limit <= b -> forall f f' o, limit - o <= f -> limit - o <= f' -> replace_end_from t f' limit o = replace_end_from (d_text d) f limit o.
Proof.
  intros L. induction f as [|f IH]; intros f' o L1 L2.
  - cbn [replace_end_from]. destruct f'; cbn [replace_end_from]; [reflexivity|]. replace (o <? limit) with false by lia. reflexivity.
  - destruct f' as [|f']; cbn [replace_end_from]; destruct (o <? limit) eqn:Q; try reflexivity; [lia|]. rewrite low_get1 by lia.
    destruct (get1 t o) as [c|]; [|reflexivity]. destruct (c =? 60)%N; [reflexivity|]. apply IH; lia.
Qed.
Lemma replace_end_le y limit : forall f o, o <= replace_end_from y f limit o <= Nat.max o limit.
Proof.
  induction f as [|f IH]; intros o; cbn [replace_end_from]; [lia|]. destruct (o <? limit) eqn:Q; [|lia]. destruct (get1 y o) as [c|]; [|lia].
  destruct (c =? 60)%N; [lia|]. specialize (IH (o + 1)). lia.
Qed.
Lemma indent_start_low : forall o, o <= b -> line_indent_start t o = line_indent_start (d_text d) o.
Proof.
  induction o as [|o IH]; intros L; [reflexivity|]. cbn [line_indent_start]. rewrite low_get1 by lia. destruct (get1 t o) as [c|]; [|apply IH; lia].
  destruct (c =? 10)%N; [reflexivity|]. destruct (white c); [apply IH; lia|reflexivity].
Qed.
Lemma indent_low o : o <= b -> get_line_indent t o = get_line_indent (d_text d) o.
Proof.
  intros L. unfold get_line_indent. rewrite indent_start_low by auto. destruct (line_indent_start _ _); [|reflexivity]. rewrite (low_slice b d d' HB HT HP) by auto. reflexivity.
Qed.
Lemma slash_low : forall i, i < b -> slash_before d' i = slash_before d i.
Proof.
  induction i as [|i IH]; intros L; [reflexivity|]. cbn [slash_before]. rewrite low_get1 by lia. destruct (get1 t _) as [c|]; [|reflexivity].
  destruct (c =? 47)%N; [reflexivity|]. destruct (white c); [apply IH; lia|reflexivity].
Qed.
Lemma alnum_low : forall o, o <= b -> alnum_left t o = alnum_left (d_text d) o.
Proof.
  induction o as [|o IH]; intros L; [reflexivity|]. cbn [alnum_left]. unfold alnum_at. rewrite low_nth by lia. rewrite IH by lia. reflexivity.
Qed.

(** ** Items *)
Section R.
Variables (md : bool) (parts : list completion_participant) (providers : list provider) (lang : str)
  (ents : list (str * list N)) (settings : option completion_settings) (order : list (str * str) -> list (str * str)).
Variables (roots roots' : list node).
Hypothesis HN : forall ex, data_attrs roots' ex = data_attrs roots ex.
Variables (p : position) (o : nat) (n : node) (ps : list node).
Hypothesis HO : o < b.
Hypothesis HOB : Bd t o.
Hypothesis HS : Forall (fun y => n_start y <= b) (n :: rev ps).
Notation low_range := (low_range b d d' HP).
Notation low_slice := (low_slice b d d' HB HT HP).

Lemma replace_low i j : j <= b -> replace_range d' o i j = replace_range d o i j.
Proof. intros L. unfold replace_range. apply low_range; lia. Qed.
Lemma open_items_low i j : j <= b -> open_tag_items d' providers lang settings o i j = open_tag_items d providers lang settings o i j.
Proof. intros L. unfold open_tag_items. rewrite replace_low by auto. reflexivity. Qed.
Lemma close_item_low i j c y tag : i <= b -> j <= b -> n_start y <= b -> close_item d' o i j c y tag = close_item d o i j c y tag.
Proof.
  intros L1 L2 L3. unfold close_item. rewrite indent_low by auto. apply bind_ext. intros si _. apply bind_ext. intros i1 E.
  assert (i1 <= b) by (unfold usub in E; destruct (1 <=? i); [|discriminate]; apply Ok_inj in E; lia). rewrite indent_low by auto. apply bind_ext. intros ei _.
  rewrite replace_low by auto. destruct si as [si|], ei as [ei|]; try reflexivity. destruct (beq si ei); [reflexivity|]. apply bind_ext. intros a2 _.
  rewrite replace_low by lia. reflexivity.
Qed.
Lemma close_tags_low i f j : i <= b -> stopped j -> close_tag_items U d' cs md providers lang settings o n ps i f j = close_tag_items U d cs md providers lang settings o n ps i f j.
Proof.
  intros L1 L2. assert (j < b) by (destruct L2 as (? & ? & _); lia). unfold close_tag_items. rewrite close_low by auto. apply bind_ext. intros fo _.
  destruct (find _ _) as [y|] eqn:F; [|reflexivity]. destruct (n_tag y) as [tag|]; [|reflexivity]. rewrite close_item_low; auto; [lia|].
  apply find_some in F as [F _]. rewrite Forall_forall in HS. apply HS. destruct f; [right|]; auto.
Qed.
Lemma tag_items_low i j : i <= b -> stopped j -> tag_items U d' cs md providers lang settings o n ps i j = tag_items U d cs md providers lang settings o n ps i j.
Proof.
  intros L1 L2. assert (j < b) by (destruct L2 as (? & ? & _); lia). unfold tag_items. rewrite close_tags_low by auto. apply bind_ext. intros l _. rewrite open_items_low by lia. reflexivity.
Qed.
Lemma names_low tag i j : i <= b -> stopped j -> Bd t j ->
  attr_name_items U d' cs md providers lang settings order roots' o n tag i j = attr_name_items U d cs md providers lang settings order roots o n tag i j.
Proof.
  intros L1 L2 BJ. assert (LJ : j < b) by (destruct L2 as (? & ? & _); lia). pose proof (low_len b d d' HB HT) as LL. pose proof (cut_le t b HB) as LC. unfold attr_name_items.
  assert (E : (if j <? i then slice t j i else slice t i j) = (if j <? i then slice (d_text d) j i else slice (d_text d) i j)) by (destruct (j <? i); symmetry; apply low_slice; lia).
  rewrite E. apply bind_ext. intros cur _. rewrite assign_low by auto. apply bind_ext. intros f _. apply bind_ext. intros pr _.
  rewrite (replace_end_low j (Nat.lt_le_incl _ _ LJ) (length (d_text d)) (length t)) by lia. rewrite replace_low, HN; [reflexivity|].
  pose proof (replace_end_le (d_text d) j (length (d_text d)) o). lia.
Qed.
Lemma value_low tag attr i j : i <= b -> j <= b -> attr_value_items U d' cs md parts providers lang settings o tag attr i j =
  attr_value_items U d cs md parts providers lang settings o tag attr i j.
Proof.
  intros L1 L2. pose proof (low_len b d d' HB HT) as LL. pose proof (cut_le t b HB) as LC. unfold attr_value_items.
  assert (E : (if (i <? o) && (o <=? j) then match get1 t i with Some c => Ok (quote_char c) | None => Panic PSlice end else Ok false) =
    (if (i <? o) && (o <=? j) then match get1 (d_text d) i with Some c => Ok (quote_char c) | None => Panic PSlice end else Ok false)).
  { destruct (i <? o) eqn:Q; [|reflexivity]. rewrite low_get1 by lia. reflexivity. }
  rewrite E. apply bind_ext. clear E. intros qu QE.
  match goal with |- bind ?y _ = bind ?z _ => assert (E : y = z) end.
  { destruct qu.
    - assert (CB : (if (i <? j) && match get1 t (j - 1) with Some x => match get1 t i with Some y => (x =? y)%N | None => false end
                      | None => match get1 t i with Some _ => false | None => true end end then j - 1 else j) =
        (if (i <? j) && match get1 (d_text d) (j - 1) with Some x => match get1 (d_text d) i with Some y => (x =? y)%N | None => false end
                      | None => match get1 (d_text d) i with Some _ => false | None => true end end then j - 1 else j)).
      { destruct (i <? j) eqn:Q; [|reflexivity]. rewrite !low_get1 by lia. reflexivity. }
      rewrite CB. clear CB. set (cb := if (i <? j) && _ then j - 1 else j).
      assert (LC' : cb <= b) by (unfold cb; match goal with |- (if ?c then _ else _) <= _ => destruct c end; lia). clearbody cb.
      rewrite word_start_low by lia. apply bind_ext. intros ws W1.
      rewrite (word_end_low cb ltac:(lia) (length (d_text d))) by lia. apply bind_ext. intros we W2.
      rewrite low_slice by lia. apply bind_ext. intros pre _. rewrite replace_low; [reflexivity|].
      assert (X : forall f o', get_word_end (d_text d) f cb o' = Ok we -> we <= Nat.max o' cb).
      { clear - cb. induction f as [|f IH]; intros o' H; cbn [get_word_end] in H; [apply Ok_inj in H; lia|]. destruct (o' <? cb) eqn:Q; [|apply Ok_inj in H; lia].
        destruct (get1 _ o') as [c|]; [|discriminate]. destruct (white c); [apply Ok_inj in H; lia|]. apply IH in H. lia. }
      apply X in W2. lia.
    - rewrite low_slice by lia. apply bind_ext. intros pre _. rewrite replace_low by auto. reflexivity. }
  rewrite E. apply bind_ext. intros [[r pre] aq] _. rewrite replace_low by auto. reflexivity.
Qed.
Lemma auto_low e tag : e <= b -> auto_close_items d' providers lang settings e tag = auto_close_items d providers lang settings e tag.
Proof. intros L. unfold auto_close_items. rewrite low_range by auto. reflexivity. Qed.
Lemma entity_low : entity_items d' ents p o = entity_items d ents p o.
Proof.
  unfold entity_items. rewrite alnum_low by lia. assert (L : alnum_left (d_text d) o <= o).
  { clear. induction o as [|o' IH]; cbn [alnum_left]; [lia|]. destruct (alnum_at _ _); lia. }
  apply bind_ext. intros c0 _. destruct (alnum_left (d_text d) o) as [|i]; [reflexivity|]. rewrite low_nth by lia. reflexivity.
Qed.
Lemma content_items_low : content_items d' parts ents p o = content_items d parts ents p o.
Proof. unfold content_items. rewrite entity_low. reflexivity. Qed.
Lemma doctype_low i j : j <= b -> doctype_item d' o i j = doctype_item d o i j.
Proof. intros L. unfold doctype_item. rewrite replace_low by auto. reflexivity. Qed.

(** What is known of the token in hand. *)
Definition held (k : nat) (s : scanner) : Prop := both k s /\ exists s0, scan U t true cs s0 = Ok s /\ Bd t (pos s0).
Lemma next_low_end k s ty : both k s -> o <= pos s -> next_end_pos U d' cs o s ty = next_end_pos U d cs o s ty /\
  forall e, next_end_pos U d cs o s ty = Ok e -> e = o \/ (o = pos s /\ exists k2 s2, both k2 s2 /\ pos s2 = e /\ tok s2 = ty /\ scan U t true cs s = Ok s2).
Proof.
  intros H L. unfold next_end_pos. destruct (o =? pos s) eqn:Q; [|split; auto; intros e E; apply Ok_inj in E; auto].
  destruct (both_more _ _ _ _ _ _ H ltac:(lia)) as (s2 & k2 & _ & S1 & S2 & _ & _ & _ & H2). rewrite (low_scan U cs b d d' HT), S1, S2. cbn [bind].
  split; auto. intros e. destruct (_ && _) eqn:G; intros E; apply Ok_inj in E; [|auto]. right. split; [lia|]. exists k2, s2. apply andb_true_iff in G as [G _].
  apply token_eqb_eq in G. auto.
Qed.
Lemma name_state s s2 : scan U t true cs s = Ok s2 ->
  (tok s2 = StartTag -> st s2 = WithinTag) /\ (tok s2 = EndTag -> st s2 = WithinEndTag) /\ (tok s2 = AttributeName -> st s2 = AfterAttributeName) /\
  (tok s2 = StartTagOpen -> st s2 = AfterOpeningStartTag) /\
  (tok s2 = EndTagOpen -> st s2 = AfterOpeningEndTag /\ pos s2 = tok_off s2 + 2 /\ nth_error t (tok_off s2 + 1) = Some SLASH) /\
  (tok s2 = Whitespace -> forall i, tok_off s2 <= i < pos s2 -> exists c, nth_error t i = Some c /\ is_ws c = true).
Proof.
  intros S. apply scan_outcome in S; auto.
  assert (W : forall e, skip_ws t (pos s) = Some e -> forall i, pos s <= i < e -> exists c, nth_error t i = Some c /\ is_ws c = true).
  { intros e E i I. apply skip_ws_some in E as (_ & _ & E & _). apply E; lia. }
  inversion S; subst; cbn [finish tok st pos tok_off]; try (repeat split; try discriminate; eauto; fail).
  rename H0 into E. rename H1 into T. assert (EP : pos sc1 = pos s) by (inversion E; subst; reflexivity).
  inversion T; subst; cbn [finish tok st pos tok_off set_space set_last_attr no_attr]; repeat split; try discriminate; auto.
  intros _. rewrite EP in *. eauto.
Qed.
Lemma complete_step_low k s tag attr : held k s -> tok_off s < o ->
  complete_step U d' cs md parts providers lang ents settings order roots' p o n ps s tag attr =
  complete_step U d cs md parts providers lang ents settings order roots p o n ps s tag attr.
Proof.
  intros [H (s0 & S & B0)] LO. pose proof (both_le _ _ _ _ _ _ H) as LP. destruct (name_state _ _ S) as (N1 & N2 & N3 & N4 & N5 & N6).
  destruct (scan_progress U t true cs HU _ _ S) as [TZ _].
  unfold complete_step. cbn zeta. rewrite (low_text b d d' HB HT HP) by auto.
  destruct (tok s) eqn:TK; try reflexivity.
  - destruct (pos s =? o) eqn:Q; [|reflexivity]. destruct (next_low_end k s StartTag H ltac:(lia)) as [E1 E2]. rewrite E1. apply bind_ext. intros e E.
    assert (W : stopped e).
    { apply E2 in E as [->|(_ & k2 & s2 & H2 & <- & T2 & S2)].
      - replace o with (pos s) by lia. apply (tag_stopped k); auto. rewrite N4 by auto. left. auto.
      - apply (tag_stopped k2); auto. rewrite (proj1 (name_state _ _ S2) T2). unfold tag_state. auto. }
    assert (e < b) by (destruct W as (? & ? & _); lia). rewrite tag_items_low by (auto; lia). rewrite doctype_low by lia. reflexivity.
  - destruct (o <=? pos s); [|reflexivity]. destruct tag; [|reflexivity]. rewrite auto_low by auto. reflexivity.
  - rewrite open_items_low by auto. reflexivity.
  - destruct (o <=? pos s) eqn:Q; [|reflexivity]. destruct (next_low_end k s EndTag H ltac:(lia)) as [E1 E2]. rewrite E1. apply bind_ext. intros e E.
    destruct (N5 eq_refl) as (X1 & X2 & X3). assert (W : stopped e).
    { apply E2 in E as [->|(_ & k2 & s2 & H2 & <- & T2 & S2)].
      - destruct (Nat.eq_dec o (pos s)) as [->|NE].
        + apply (tag_stopped k); auto. rewrite X1. unfold tag_state. auto.
        + assert (EO : o = tok_off s + 1) by lia. exists o. split; [lia|]. split; [intros i I; lia|]. exists SLASH. rewrite EO. auto.
      - apply (tag_stopped k2); auto. rewrite (proj1 (proj2 (name_state _ _ S2)) T2). unfold tag_state. auto. }
    rewrite close_tags_low; auto. lia.
  - destruct (o <=? pos s) eqn:Q; [|reflexivity]. apply bind_ext. intros i I.
    assert (LI : i < b) by (unfold usub in I; destruct (1 <=? tok_off s); [|discriminate]; apply Ok_inj in I; lia). rewrite slash_low by auto.
    apply bind_ext. intros [q|] SQ; [|reflexivity]. rewrite close_tags_low; auto.
    + assert (X : forall i, slash_before d i = Ok (Some q) -> q <= i).
      { clear. induction i as [|i IH]; cbn [slash_before]; intros H; [discriminate|]. destruct (get1 _ _) as [c|]; [|discriminate].
        destruct (c =? 47)%N; [apply Ok_inj, Some_inj in H; lia|]. destruct (white c); [apply IH in H; lia|discriminate]. }
      apply X in SQ. lia.
    + apply (tag_stopped k); auto. rewrite N2 by auto. unfold tag_state. auto.
  - destruct (pos s =? o) eqn:Q; [|reflexivity]. destruct (next_low_end k s AttributeValue H ltac:(lia)) as [E1 E2]. rewrite E1. apply bind_ext. intros e E.
    rewrite value_low; auto; [lia|]. apply E2 in E as [->|(_ & k2 & s2 & H2 & <- & _)]; [lia|]. exact (both_le _ _ _ _ _ _ H2).
  - destruct (_ && _) eqn:Q; [|reflexivity]. rewrite names_low; auto; [lia| |exact (both_Bd _ _ _ _ HB _ _ H)].
    apply (tag_stopped k); auto. rewrite N3 by auto. unfold tag_state. auto 10.
  - destruct (_ && _) eqn:Q; [|reflexivity]. rewrite value_low; auto. lia.
  - rewrite content_items_low. reflexivity.
  - destruct (o <=? pos s) eqn:Q; [|reflexivity].
    assert (WO : tag_state (st s) -> stopped o).
    { intros T. apply (stopped_back o (pos s)); [lia| |apply (tag_stopped k); auto]. intros i I. apply (N6 eq_refl). lia. }
    unfold tag_state in WO. destruct (st s) eqn:ST; try reflexivity.
    + rewrite content_items_low. reflexivity.
    + destruct (next_low_end k s StartTag H ltac:(lia)) as [E1 E2]. rewrite E1. apply bind_ext. intros e E. rewrite tag_items_low; auto; [lia|].
      apply E2 in E as [->|(_ & k2 & s2 & H2 & <- & T2 & S2)]; [apply WO; auto|]. apply (tag_stopped k2); auto.
      rewrite (proj1 (name_state _ _ S2) T2). unfold tag_state. auto.
    + apply bind_ext. intros i I. assert (LI : i < b) by (unfold usub in I; destruct (1 <=? tok_off s); [|discriminate]; apply Ok_inj in I; lia).
      rewrite close_tags_low; [reflexivity|lia|apply WO; auto].
    + rewrite names_low; auto.
    + rewrite names_low; auto. apply WO; auto 10.
    + rewrite value_low; auto; lia.
Qed.
Lemma complete_loop_low k s : both k s -> (exists s0, scan U t true cs s0 = Ok s /\ Bd t (pos s0)) -> forall tag attr f f', k + 1 < f -> k + 1 < f' ->
  complete_loop U d' cs md parts providers lang ents settings order roots' p o n ps f' s tag attr =
  complete_loop U d cs md parts providers lang ents settings order roots p o n ps f s tag attr.
Proof.
  intros H. induction H as [s P W|k s s2 P B S1 S2 O N PR H IH]; intros HH tag attr f f' F F'; destruct f as [|f]; try lia; destruct f' as [|f']; try lia; cbn [complete_loop].
  - destruct (negb _ && _) eqn:G; [|reflexivity]. rewrite (complete_step_low 0); [|split; auto; apply both_last; auto|lia].
    apply bind_ext. intros [[[r|] tag'] attr'] _; [reflexivity|]. rewrite (last_low U cs b d d' HD HB HT HP) by auto. destruct (last_high U cs b d d' HB HP true s P W) as (r & -> & R1 & R2). cbn [bind].
    destruct f as [|f]; [lia|]. destruct f' as [|f']; [lia|]. cbn [complete_loop finish tok tok_off]. replace (tok_off r <? o) with false by lia. rewrite andb_false_r. reflexivity.
  - destruct (negb _ && _) eqn:G; [|reflexivity]. rewrite (complete_step_low (Datatypes.S k)); [|split; auto; eapply both_step; eauto|lia].
    apply bind_ext. intros [[[r|] tag'] attr'] _; [reflexivity|]. rewrite (low_scan U cs b d d' HT), S1, S2. cbn [bind]. apply IH; [|lia|lia]. exists s. auto.
Qed.
End R.
End L.
