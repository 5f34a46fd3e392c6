(** * C46, C54-C57: formatting *)
From Verif Require Import Base Stream Scanner BaseFacts ScannerFacts ScanStep ScanProps ScanPanic
  ScanShape ScanResume ScanEnter ScanLocal Tree Parser ParseSpec ParseInv ParseOrder PropParse TreeFacts PropTree
  TextDoc PropDoc Formatter FormatFacts RepoTestsFormat.
From Coq Require Import ZifyBool ZifyNat ZifyN Permutation Sorted.

(** ** What a parsed node says about the text, as far as the formatter is concerned *)
Record fnode (t : str) (n : node) : Prop := {
  fn_start : Bd t (n_start n);
  fn_end : Bd t (n_end n);
  fn_le : n_start n < n_end n;
  fn_ends : forall e, n_ets n = Some e ->
     exists s, n_ste n = Some s /\ Bd t s /\ Bd t e /\ s <= e /\ n_start n < s /\ e < n_end n /\ chain s (n_children n) e;
  fn_tag : forall x, n_tag n = Some x -> Utf8 x;
  fn_attrs : forall x a, attr_get x (n_attrs n) = Some a -> Utf8 x /\ forall v, a_value a = Some v -> Utf8 v;
  fn_keys : NoDup (map fst (n_attrs n));
  fn_ste : forall s, n_ste n = Some s -> Bd t s /\ n_start n < s /\ s <= n_end n
}.

Lemma sub_nth0 t a b x r : sub t a b = x :: r -> nth_error t a = Some x /\ a < b.
Proof.
  unfold sub. intros H. destruct (b - a) as [|k] eqn:E; [discriminate|].
  destruct (skipn a t) as [|y l] eqn:Q; [discriminate|]. cbn [firstn] in H. inv H. split; [|lia].
  pose proof (skipn_nth_error t a 0) as Z. rewrite Q, Nat.add_0_r in Z. auto.
Qed.
Lemma sub_last t a b x r : sub t a b = r ++ [x] -> b <= length t -> nth_error t (b - 1) = Some x /\ a < b.
Proof.
  intros H L. assert (a < b).
  { destruct (Nat.lt_ge_cases a b); auto. unfold sub in H. replace (b - a) with 0 in H by lia. destruct r; discriminate. }
  split; auto. pose proof (f_equal (@length N) H) as E. rewrite sub_length, app_length in E by lia. cbn in E.
  pose proof (sub_nth_error t a b (length r) ltac:(lia)) as N. rewrite H, nth_error_app2, Nat.sub_diag in N by lia.
  cbn in N. rewrite N. f_equal. lia.
Qed.

Lemma value_utf8 t a b : Utf8 t -> b <= length t -> value_text t a b -> Utf8 (sub t a b).
Proof.
  intros HU L [m M C E|q body Q E N|q body Q E N LB].
  - destruct C as (l & _ & S & El & _). destruct E as [[-> _]|[-> E]]; [exists l; auto|].
    rewrite (sub_split t a m (m + 1)) by lia. apply utf8_app; [exists l; auto|].
    destruct E as [E|E]; rewrite (sub_one _ _ _ E); apply ascii_one; reflexivity.
  - assert (Q' : (q < 128)%N) by (destruct Q; subst; reflexivity).
    destruct (sub_nth0 _ _ _ _ _ E) as [E1 Lt]. change (q :: body ++ [q]) with ((q :: body) ++ [q]) in E.
    destruct (sub_last _ _ _ _ _ E L) as [E2 _]. pose proof (Bd_after_ascii _ _ _ HU E2 Q') as B.
    replace (b - 1 + 1) with b in B by lia. apply Bd_sub; auto; [|lia]. apply (Bd_at_ascii _ _ q); auto.
  - assert (Q' : (q < 128)%N) by (destruct Q; subst; reflexivity). destruct (sub_nth0 _ _ _ _ _ E) as [E1 Lt].
    subst b. apply Bd_sub; [apply (Bd_at_ascii _ _ q); auto|apply Bd_len; auto|lia].
Qed.

Lemma doc_shapes U t cs l : Utf8 t -> doc_tokens U t cs = Ok l -> Forall (token_shape U t true) l.
Proof.
  intros HU T. unfold doc_tokens in T. apply bind_ok in T as ([l' f] & T & E). inv E.
  revert T. apply tokens_forall. intros a b. apply scan_shape. auto.
Qed.

Lemma prefix_at p t i : is_prefix p (skipn i t) = true -> p <> [] -> exists b r, p = b :: r /\ nth_error t i = Some b.
Proof.
  intros H N. destruct p as [|b r]; [congruence|]. exists b, r. split; auto.
  pose proof (skipn_nth_error t i 0) as Z. rewrite Nat.add_0_r in Z. rewrite <- Z.
  apply is_prefix_spec in H as (x & ->). auto.
Qed.

Lemma attr_utf8 U t l : Utf8 t -> Forall (token_shape U t true) l -> (forall k, In k l -> tk_end k <= length t) ->
  forall ks, (forall k, In k ks -> In k l) -> forall x a, attr_in t x ks = Some a ->
  Utf8 x /\ forall v, a_value a = Some v -> Utf8 v.
Proof.
  intros HU SH LE ks. rewrite Forall_forall in SH. induction ks as [|k ks IH]; intros I x a; cbn [attr_in]; [discriminate|].
  destruct (attr_in t x ks) eqn:E; [intros Q; inv Q; apply IH; auto; intros; apply I; cbn; auto|].
  destruct (_ && _) eqn:Q; [|discriminate]. intros A. inv A. apply andb_true_iff in Q as [Q1 Q2].
  apply token_eqb_eq in Q1. apply beq_eq in Q2. subst x. cbn [a_value].
  pose proof (SH k (I k (or_introl eq_refl))) as S1. unfold token_shape in S1. rewrite Q1 in S1.
  destruct S1 as (c & _ & C1 & C2 & _). split; [exists c; auto|].
  assert (I' : forall k, In k ks -> In k l) by (intros; apply I; cbn; auto). clear - HU SH LE I'.
  induction ks as [|k ks IH]; cbn [value_after]; [discriminate|]. intros v.
  destruct (tk_type k) eqn:T; try discriminate.
  - intros E. inv E. destruct ks as [|k' ks]; [apply utf8_nil|].
    destruct (token_eqb (tk_type k') AttributeValue) eqn:T'; [|apply utf8_nil]. apply token_eqb_eq in T'.
    assert (I2 : In k' l) by (apply I'; cbn; auto). pose proof (SH k' I2) as S2. unfold token_shape in S2.
    rewrite T' in S2. apply value_utf8; auto.
  - apply IH. intros; apply I'; cbn; auto.
Qed.

Lemma parsed_fnode U t cs void roots : Utf8 t -> parse U t cs void = Ok roots -> Forall (all_nodes (fnode t)) roots.
Proof.
  intros HU H. apply roots_of_doc. apply Forall_forall. intros n I.
  destruct (parse_tokens _ _ _ _ _ HU H) as (l & T). destruct (C12_spans _ _ _ _ _ HU H) as [_ SP].
  rewrite Forall_forall in SP. destruct (SP n I) as (S1 & S2 & S3).
  destruct (doc_ok _ _ _ _ _ _ HU T H) as (_ & F & _). rewrite Forall_forall in F. destruct (F n I).
  pose proof (doc_shapes _ _ _ _ HU T) as SH. pose proof (doc_tiles _ _ _ _ HU T) as TL.
  assert (LE : forall k, In k l -> tk_end k <= length t).
  { intros k K. apply (tiles_bounds _ _ _ _ TL) in K. lia. }
  assert (EN : forall ty, ty = StartTagClose \/ ty = StartTagSelfClose -> ended l n ty ->
     forall s, n_ste n = Some s -> Bd t s).
  { intros ty TY (k & K1 & K2 & K3 & K4) s Es. rewrite K4 in Es. inv Es. rewrite Forall_forall in SH.
    pose proof (SH k K1) as Q. unfold token_shape in Q.
    assert (X : exists r, sub t (tk_off k) (tk_end k) = r ++ [GT]).
    { destruct TY as [K2|K2]; rewrite K2 in Q; [destruct Q as [Q|(_ & Q & _)]; [exists []; auto|lia]|].
      exists [SLASH]. auto. }
    destruct X as (r & X). apply sub_last in X as [X _]; auto.
    pose proof (Bd_after_ascii _ _ _ HU X ltac:(reflexivity)) as B. replace (tk_end k - 1 + 1) with (tk_end k) in B by lia. auto. }
  assert (ET : forall e name, end_tag_text U t e name (n_end n) -> Bd t e /\ Bd t (n_end n)).
  { intros e name (P & p & W & M). apply prefix_at in P as (b & r & P1 & P2); [|discriminate]. inv P1.
    split; [apply (Bd_at_ascii _ _ LT); auto; reflexivity|]. destruct name.
    - destruct M as (p1 & p2 & _ & _ & _ & [[M ->]|[M ->]]); [apply (Bd_after_ascii _ _ GT)|apply (Bd_at_ascii _ _ LT)]; auto; reflexivity.
    - destruct M as (_ & p2 & _ & M & ->). apply (Bd_after_ascii _ _ GT); auto; reflexivity. }
  assert (ST : forall s, n_ste n = Some s -> Bd t s).
  { destruct ok_close; eauto. intros s. congruence. }
  constructor; auto.
  - apply (Bd_at_ascii _ _ LT); auto. reflexivity.
  - destruct ok_close as [e s name|Q1 Q2 Q3|Q1 Q2 Q3|s A1 A2 A3 A4 A5 A6 [A7|A7]|A1 A2 A3 A4 [A5|A5] A6].
    + eapply ET; eauto.
    + apply ST; auto.
    + apply ST; auto.
    + rewrite A7. apply Bd_len; auto.
    + apply prefix_at in A7 as (b & r & P1 & P2); [|discriminate]. inv P1. apply (Bd_at_ascii _ _ LT); auto; reflexivity.
    + rewrite A5. apply Bd_len; auto.
    + apply (Bd_at_ascii _ _ LT); auto; reflexivity.
  - intros e E. rewrite E in S3. destruct (n_ste n) as [s|] eqn:Es; [|contradiction]. exists s.
    destruct ok_close; try congruence. assert (e0 = e) by congruence. subst e0.
    split; auto. split; [auto|]. split; [eapply ET; eauto|]. tauto.
  - intros x X. destruct ok_tag as (p & W & M). rewrite X in M. destruct M as (e & M1 & ->).
    apply elem_name_text in M1; auto. destruct M1 as (c & w & M1 & M2 & _). exists (c :: w). auto.
  - intros x a A. destruct ok_start as (pre & op & ks & post & B1 & B2 & B3 & B4 & B5 & B6 & B7 & B8 & B9).
    rewrite B8 in A. revert A. apply (attr_utf8 U t l); auto. intros k K. rewrite B1, in_app_iff. cbn. rewrite in_app_iff. auto.
  - intros s E. split; auto. rewrite E in S3. destruct (n_ets n); lia.
Qed.

(** ** C54: nothing but white space is laid out anew *)
(** The elements that the formatter writes: those all of whose ancestors have an end tag. *)
Fixpoint rendered (n : node) : list node :=
  n :: match n with mkNode _ _ _ ch _ _ ets _ =>
         match ets with Some _ => flat_map rendered ch | None => [] end
       end.

(** The characters other than white space of an attribute, and of an element: the start tag, then the
    text of the document between the children and the children, then the end tag. *)
Definition attr_ink (n : node) (name : str) : list N :=
  ink name ++ match attr_get name (n_attrs n) with
              | Some (mkAttr (Some v) _) => bs "=" ++ ink v
              | _ => []
              end.
Section Ink.
Variable t : str.
Fixpoint element_ink (n : node) : list N :=
  match n with mkNode tag _ _ ch _ ste ets _ =>
    match tag with
    | None => []
    | Some name =>
        bs "<" ++ ink name ++ flat_map (attr_ink n) (attribute_names_by_order n) ++
        match ste, ets with
        | Some s, Some e =>
            bs ">" ++
            (fix go (prev : nat) (l : list node) : list N :=
               match l with
               | [] => ink (sub t prev e)
               | c :: r => ink (sub t prev (n_start c)) ++ element_ink c ++ go (n_end c) r
               end) s ch ++
            bs "</" ++ ink name ++ bs ">"
        | _, _ => bs "/>"
        end
    end
  end.
(** From [prev] to [e], with the children [l] between them *)
Variable e : nat.
Fixpoint inner_ink (prev : nat) (l : list node) : list N :=
  match l with
  | [] => ink (sub t prev e)
  | c :: r => ink (sub t prev (n_start c)) ++ element_ink c ++ inner_ink (n_end c) r
  end.
End Ink.
Lemma element_ink_eq t n : element_ink t n =
  match n_tag n with
  | None => []
  | Some name => bs "<" ++ ink name ++ flat_map (attr_ink n) (attribute_names_by_order n) ++
      match n_ste n, n_ets n with
      | Some s, Some e => bs ">" ++ inner_ink t e s (n_children n) ++ bs "</" ++ ink name ++ bs ">"
      | _, _ => bs "/>"
      end
  end.
Proof. destruct n. reflexivity. Qed.
Lemma rendered_eq n : rendered n = n :: match n_ets n with Some _ => flat_map rendered (n_children n) | None => [] end.
Proof. destruct n. reflexivity. Qed.

(** The loop over the children, as a function of its own *)
Section B.
Variable t : str.
Variable o : format_options.
Section Children.
Variable level ets : nat.
Fixpoint children_text (prev : nat) (l : list node) : res str :=
  match l with
  | [] => Ok []
  | c :: r =>
      do text <- slice t prev (n_start c);
      do x <- beautify_node t o c (S level);
      do rest <- match r with
                 | [] => do text <- slice t (n_end c) ets; Ok (beautify_text o text (S level))
                 | _ :: _ => children_text (n_end c) r
                 end;
      Ok (beautify_text o text (S level) ++ [LF] ++ x ++ rest)
  end.
End Children.
(** The text of an element without children *)
Definition leaf_text (n : node) (level ste ets : nat) (inner : str) : str :=
  if (length (n_children n) =? 0) && negb (ste =? ets) then
    let text := beautify_text o inner (S level) in
    if node_is_wrap o n level inner && (0 <? length (trim text))
    then [LF] ++ get_indent o (S level) ++ trim_start text
    else text
  else [].
Definition open_text (n : node) (level : nat) (tag : str) : str :=
  get_indent o level ++ bs "<" ++ tag ++ format_attrs o (node_attrs_is_wrap o n level) level n.
Lemma beautify_node_eq n level : beautify_node t o n level =
  do tag <- unwrap (n_tag n);
  match n_ets n with
  | None =>
      Ok (open_text n level tag ++
          if node_attrs_is_wrap o n level then [LF] ++ get_indent o level ++ bs "/>" else bs " />")
  | Some ets =>
      do ste <- unwrap (n_ste n);
      do children <- children_text level ets ste (n_children n);
      do inner <- slice t ste ets;
      Ok (open_text n level tag ++
          (if node_attrs_is_wrap o n level then [LF] ++ get_indent o level else []) ++ bs ">" ++
          (children ++ leaf_text n level ste ets inner) ++
          (if node_attrs_is_wrap o n level || node_is_wrap o n level inner then [LF] ++ get_indent o level else []) ++
          bs "</" ++ tag ++ bs ">")
  end.
Proof.
  destruct n as [tag s e ch cl ste ets attrs]. cbn [beautify_node]. cbv zeta.
  cbn [n_tag n_ets n_ste n_children]. unfold leaf_text. cbn [n_children].
  set (n := mkNode tag s e ch cl ste ets attrs). destruct tag as [tag|]; [|reflexivity].
  cbn [unwrap bind]. cbv zeta. unfold open_text. destruct ets as [ets|].
  - destruct ste as [ste|]; [|reflexivity]. cbn [unwrap bind].
    set (x := children_text level ets ste ch).
    match goal with |- bind ?y _ = _ => change y with x end.
    destruct x as [children| |]; [|reflexivity..]. cbn [bind]. destruct (slice t ste ets) as [inner| |]; [|reflexivity..].
    cbn [bind]. rewrite !app_assoc_reverse.
    destruct (node_attrs_is_wrap o n level); cbn [orb]; [rewrite ?app_assoc_reverse; reflexivity|].
    destruct (node_is_wrap o n level inner); rewrite ?app_assoc_reverse; reflexivity.
  - destruct (node_attrs_is_wrap o n level); rewrite ?app_assoc_reverse; reflexivity.
Qed.
End B.

Definition all_named (l : list node) : Prop := forall m, In m (flat_map rendered l) -> n_tag m <> None.
Definition some_nameless (l : list node) : Prop := exists m, In m (flat_map rendered l) /\ n_tag m = None.

Section Spec.
Variable t : str.
Variable o : format_options.
Hypothesis HU : Utf8 t.

Lemma slice_bd a b : Bd t a -> Bd t b -> a <= b -> slice t a b = Ok (sub t a b) /\ Utf8 (sub t a b).
Proof.
  intros A B L. split; [|apply Bd_sub; auto]. unfold slice.
  rewrite (Bd_boundary _ _ A), (Bd_boundary _ _ B). pose proof (Bd_le _ _ B).
  replace (a <=? b) with true by lia. replace (b <=? length t) with true by lia. auto.
Qed.

Definition node_spec (n : node) : Prop := forall level,
  (all_named [n] /\ exists x, beautify_node t o n level = Ok x /\ Utf8 x /\ ink x = element_ink t n) \/
  (some_nameless [n] /\ beautify_node t o n level = Panic PUnwrap).

Lemma named_cons c r : all_named (c :: r) <-> all_named [c] /\ all_named r.
Proof.
  unfold all_named. cbn [flat_map]. rewrite app_nil_r. split.
  - intros H. split; intros m M; apply H; apply in_app_iff; auto.
  - intros [H1 H2] m M. apply in_app_iff in M as [M|M]; auto.
Qed.
Lemma nameless_cons c r : some_nameless [c] \/ some_nameless r -> some_nameless (c :: r).
Proof.
  unfold some_nameless. cbn [flat_map]. rewrite app_nil_r. intros [(m & M & E)|(m & M & E)];
    exists m; rewrite in_app_iff; auto.
Qed.

Lemma children_spec level e : Bd t e -> forall l prev, l <> [] -> Forall node_spec l -> Forall (fnode t) l ->
  Bd t prev -> chain prev l e ->
  (all_named l /\ exists x, children_text t o level e prev l = Ok x /\ Utf8 x /\ ink x = inner_ink t e prev l) \/
  (some_nameless l /\ children_text t o level e prev l = Panic PUnwrap).
Proof.
  intros Be. induction l as [|c r IH]; intros prev NE S F Bp C; [congruence|]. clear NE.
  inv S. inv F. cbn [chain] in C. destruct C as (C1 & C2 & C3). destruct H3 as [Fs Fe _ _ _ _ _].
  cbn [children_text inner_ink].
  destruct (slice_bd prev (n_start c) Bp Fs C1) as [-> U1]. cbn [bind].
  destruct (beautify_text_ink o (S level) _ U1) as [T1 T2].
  destruct (H1 (S level)) as [(N & x & -> & Ux & Ix)|(N & ->)]; cbn [bind].
  2: { right. split; auto. apply nameless_cons. auto. }
  destruct r as [|c' r].
  - cbn [chain] in C3. destruct (slice_bd (n_end c) e Fe Be C3) as [-> U2]. cbn [bind].
    destruct (beautify_text_ink o (S level) _ U2) as [T3 T4]. left. split; auto. eexists. split; [reflexivity|]. split.
    + apply utf8_app; auto. apply utf8_app; [apply white_lf|]. apply utf8_app; auto.
    + rewrite ink_app, ink_white, ink_app, T2, T4, Ix by auto using white_lf. auto.
  - destruct (IH (n_end c)) as [(N' & y & -> & Uy & Iy)|(N' & ->)]; auto; [discriminate| |]; cbn [bind].
    + left. split; [apply named_cons; auto|]. eexists. split; [reflexivity|]. split.
      * apply utf8_app; auto. apply utf8_app; [apply white_lf|]. apply utf8_app; auto.
      * rewrite ink_app, ink_white, ink_app, T2, Iy, Ix by auto using white_lf. auto.
    + right. split; auto. apply nameless_cons. auto.
Qed.

Lemma bs_utf8 s : all_ascii (bs s) = true -> Utf8 (bs s).
Proof. apply ascii_utf8. Qed.
Lemma ink_bs b : (b < 128)%N -> is_uspace b = false -> ink [b] = [b].
Proof. intros H S. unfold ink. rewrite ascii_dec by (cbn; lia). cbn [filter]. rewrite S. auto. Qed.

Lemma format_attr_ink n wrap level name : fnode t n -> In name (attribute_names n) ->
  Utf8 (format_attr o wrap level n name) /\ ink (format_attr o wrap level n name) = attr_ink n name.
Proof.
  intros F I. unfold format_attr, attr_ink.
  assert (W : white (if wrap then [LF] ++ get_attr_indent o level else [SP])).
  { destruct wrap; [apply white_app; auto using white_lf, white_attr_indent|apply white_sp]. }
  destruct F as [_ _ _ _ _ FA _]. destruct (attr_get name (n_attrs n)) as [[v off]|] eqn:E.
  - destruct (FA _ _ E) as [U1 U2]. cbn [a_value] in U2. destruct v as [v|].
    + specialize (U2 v eq_refl). assert (Q : Utf8 (bs "=")) by (apply bs_utf8; reflexivity). split.
      * apply utf8_app; [apply W|]. apply utf8_app; auto. apply utf8_app; auto.
      * rewrite ink_white, ink_app, ink_app by auto. do 2 f_equal.
    + split; [apply utf8_app; [apply W|]; apply utf8_app; auto using utf8_nil|]. rewrite ink_white, ink_app by auto. auto.
  - exfalso. unfold attribute_names in I. clear - E I. revert E I. generalize (n_attrs n).
    induction l as [|[k a] l IH]; cbn [attr_get map fst In]; auto. destruct (beq name k) eqn:B; [discriminate|].
    intros E [->|I]; [rewrite beq_refl in B; discriminate|auto].
Qed.
Lemma format_attrs_ink n wrap level : fnode t n ->
  Utf8 (format_attrs o wrap level n) /\ ink (format_attrs o wrap level n) = flat_map (attr_ink n) (attribute_names_by_order n).
Proof.
  intros F. unfold format_attrs.
  assert (I : forall x, In x (attribute_names_by_order n) -> In x (attribute_names n)).
  { unfold attribute_names_by_order, attribute_names. intros x X. apply in_map_iff in X as (y & <- & Y).
    apply in_map. eapply Permutation_in; [symmetry; apply sort_perm|auto]. }
  revert I. generalize (attribute_names_by_order n). induction l as [|x l IH]; intros I; [split; [apply utf8_nil|auto]|].
  destruct (format_attr_ink n wrap level x F (I x (or_introl eq_refl))) as [A1 A2].
  destruct IH as [I1 I2]; [intros; apply I; cbn; auto|]. cbn [flat_map]. split; [apply utf8_app; auto|].
  rewrite ink_app, A2, I2; auto.
Qed.

Lemma leaf_ink n level a b inner : Utf8 inner ->
  Utf8 (leaf_text o n level a b inner) /\
  ink (leaf_text o n level a b inner) = if (length (n_children n) =? 0) && negb (a =? b) then ink inner else [].
Proof.
  intros H. unfold leaf_text. destruct (_ && negb _); [|split; [apply utf8_nil|auto]].
  destruct (beautify_text_ink o (S level) _ H) as [T1 T2]. cbv zeta.
  destruct (_ && _); [|auto]. destruct (trim_start_utf8 _ T1) as [S1 S2].
  pose proof (white_indent o (S level)) as W. split.
  - apply utf8_app; [apply white_lf|]. apply utf8_app; [apply W|auto].
  - rewrite !ink_white by auto using white_lf. congruence.
Qed.

Lemma beautify_spec n : all_nodes (fnode t) n -> node_spec n.
Proof.
  revert n. apply (node_induction (fun n => all_nodes (fnode t) n -> node_spec n)). intros n IH A level.
  inv A. rewrite beautify_node_eq, element_ink_eq.
  assert (R : flat_map rendered [n] = n :: match n_ets n with Some _ => flat_map rendered (n_children n) | None => [] end).
  { cbn [flat_map]. rewrite app_nil_r. apply rendered_eq. }
  destruct (n_tag n) as [tag|] eqn:T; cbn [unwrap bind].
  2: { right. split; auto. exists n. rewrite R. cbn. auto. }
  destruct (format_attrs_ink n (node_attrs_is_wrap o n level) level H) as [A1 A2].
  assert (Ut : Utf8 tag) by (eapply fn_tag; eauto).
  assert (Q : forall s, In s ["<"; ">"; "</"; "/>"; " />"]%string -> Utf8 (bs s)).
  { intros s S. apply bs_utf8. cbn [In] in S. decompose [or] S; subst; try reflexivity. contradiction. }
  assert (O1 : Utf8 (open_text o n level tag)).
  { unfold open_text. apply utf8_app; [apply white_indent|]. apply utf8_app; [apply Q; cbn [In]; auto 8|]. apply utf8_app; auto. }
  assert (O2 : ink (open_text o n level tag) = bs "<" ++ ink tag ++ flat_map (attr_ink n) (attribute_names_by_order n)).
  { unfold open_text. rewrite ink_white, !ink_app, A2 by (auto using white_indent; apply Q; cbn [In]; auto 8). auto. }
  set (wr := [LF] ++ get_indent o level). assert (W : white wr) by (apply white_app; auto using white_lf, white_indent).
  destruct (n_ets n) as [e|] eqn:E.
  - destruct (fn_ends _ _ H e E) as (s & Es & Bs & Be & L & _ & _ & C). rewrite Es. cbn [unwrap bind].
    destruct (slice_bd s e Bs Be L) as [S1 S2].
    assert (X : (all_named (n_children n) /\ exists x, children_text t o level e s (n_children n) = Ok x /\ Utf8 x /\
                   forall inner, inner = sub t s e -> ink (x ++ leaf_text o n level s e inner) = inner_ink t e s (n_children n)) \/
                (some_nameless (n_children n) /\ children_text t o level e s (n_children n) = Panic PUnwrap)).
    { destruct (n_children n) as [|c r] eqn:CH.
      - left. split; [intros m []|]. exists []. split; auto. split; [apply utf8_nil|]. intros inner ->. cbn [app inner_ink].
        destruct (leaf_ink n level s e _ S2) as [_ ->]. rewrite CH. cbn [length Nat.eqb andb].
        destruct (s =? e) eqn:Z; cbn [negb]; auto. replace e with s by lia. rewrite sub_nil. auto.
      - destruct (children_spec level e Be (c :: r) s) as [(N & x & X1 & X2 & X3)|[N X]]; auto.
        + discriminate.
        + rewrite Forall_forall in *. intros y Y. apply IH; auto.
        + rewrite Forall_forall in *. intros y Y. apply H0 in Y. inv Y. auto.
        + left. split; auto. exists x. split; auto. split; auto. intros inner ->.
          rewrite ink_app by auto. destruct (leaf_ink n level s e _ S2) as [_ ->]. rewrite CH. cbn [length Nat.eqb andb].
          rewrite app_nil_r. auto. }
    destruct X as [(N & x & -> & X1 & X2)|(N & ->)]; cbn [bind].
    + left. split.
      { intros m M. rewrite R in M. destruct M as [<-|M]; [congruence|auto]. }
      rewrite S1. cbn [bind]. set (inner := sub t s e) in *. specialize (X2 inner eq_refl).
      assert (UL : Utf8 (x ++ leaf_text o n level s e inner)).
      { apply utf8_app; auto. apply leaf_ink; auto. }
      set (body := x ++ leaf_text o n level s e inner) in *.
      assert (W1 : forall b : bool, white (if b then wr else [])) by (intros []; auto using white_nil).
      eexists. split; [reflexivity|].
      assert (V1 : Utf8 (bs "</" ++ tag ++ bs ">")).
      { apply utf8_app; [apply Q; cbn [In]; auto 8|]. apply utf8_app; auto. apply Q; cbn [In]; auto 8. }
      assert (V2 : Utf8 (bs ">")) by (apply Q; cbn [In]; auto 8).
      split.
      * apply utf8_app; auto. apply utf8_app; [apply W1|]. apply utf8_app; auto. apply utf8_app; auto.
        apply utf8_app; auto. apply W1.
      * rewrite ink_app, O2, ink_white, ink_app, ink_app, ink_white, X2 by (auto; apply W1).
        rewrite (ink_app (bs "</")), (ink_app tag) by (auto; apply Q; cbn [In]; auto 8).
        rewrite !app_assoc_reverse. reflexivity.
    + right. split; auto. destruct N as (m & M & M'). exists m. split; auto. rewrite R. cbn. auto.
  - left. split.
    { intros m M. rewrite R in M. destruct M as [<-|[]]. congruence. }
    eexists. split; [reflexivity|].
    match goal with |- _ /\ ink (_ ++ ?y) = _ => set (tl := y) end.
    assert (V : Utf8 tl /\ ink tl = bs "/>").
    { unfold tl. destruct (node_attrs_is_wrap o n level).
      - change ([LF] ++ get_indent o level ++ bs "/>") with (wr ++ bs "/>"). split; [apply utf8_app; [apply W|]; apply Q; cbn [In]; auto 8|]. rewrite ink_white; auto.
      - split; [apply Q; cbn [In]; auto 8|reflexivity]. }
    destruct V as [V1 V2]. split; [apply utf8_app; auto|]. rewrite ink_app, O2, V2 by auto.
    destruct (n_ste n); rewrite !app_assoc_reverse; auto.
Qed.
End Spec.

Lemma roots_spec t o : Utf8 t -> forall l, Forall (all_nodes (fnode t)) l ->
  (all_named l /\ exists x, beautify_roots t o l = Ok x /\ Utf8 x /\ ink x = flat_map (element_ink t) l) \/
  (some_nameless l /\ beautify_roots t o l = Panic PUnwrap).
Proof.
  intros HU. induction l as [|n l IH]; intros F; cbn [beautify_roots flat_map].
  - left. split; [intros m []|]. exists []. repeat split. apply utf8_nil.
  - inv F. destruct (beautify_spec t o n H1 0) as [(N & x & -> & X1 & X2)|(N & ->)]; cbn [bind].
    2: { right. split; auto. apply nameless_cons. auto. }
    destruct (IH H2) as [(N' & y & -> & Y1 & Y2)|(N' & ->)]; cbn [bind].
    + left. split; [apply named_cons; auto|]. eexists. split; [reflexivity|]. split; [apply utf8_app; auto|].
      rewrite ink_app, X2, Y2; auto.
    + right. split; auto. apply nameless_cons. auto.
Qed.
Lemma html_beautify_spec U t o cs roots : Utf8 t -> parse U t cs html5_void = Ok roots ->
  (all_named roots /\ exists x, html_beautify U t o cs = Ok x /\ Utf8 x /\ ink x = flat_map (element_ink t) roots) \/
  (some_nameless roots /\ html_beautify U t o cs = Panic PUnwrap).
Proof.
  intros HU H. unfold html_beautify. rewrite H. cbn [bind].
  destruct (roots_spec t o HU roots (parsed_fnode _ _ _ _ _ HU H)) as [(N & x & -> & X1 & X2)|(N & ->)]; cbn [bind]; auto.
  left. split; auto. eexists. split; [reflexivity|]. destruct (_ && _); auto.
  split; [apply utf8_app; auto; apply white_lf|]. rewrite ink_white_r by auto using white_lf. auto.
Qed.

(** ** The selected part of the text *)
(** [body s v]: [v] is [s] without the white space at its start. *)
Definition body (s v : str) : Prop :=
  exists w, s = w ++ v /\ white w /\ Utf8 v /\ forall c r, decode v = c :: r -> is_uspace c = false.
Lemma trim_left_body s : Utf8 s -> body s (trim_left s).
Proof.
  intros H. pose proof (utf8_decode s H) as [H1 H2]. unfold trim_left.
  assert (CR' : char_run is_uspace s = length (encode (take_while is_uspace (decode s)))).
  { rewrite <- H2 at 1. apply char_run_encode. auto. }
  rewrite CR'. clear CR'.
  destruct (take_while_split is_uspace (decode s)) as (r & E & N). pose proof (take_while_forall is_uspace (decode s)) as F.
  set (w := take_while is_uspace (decode s)) in *.
  assert (S : s = encode w ++ encode r) by (rewrite <- encode_app, <- E; auto).
  rewrite S at 2. rewrite skipn_app, Nat.sub_diag, skipn_all. cbn [app skipn].
  assert (Q : forallb scalar w = true /\ forallb scalar r = true).
  { rewrite E, forallb_app, andb_true_iff in H1. auto. }
  destruct Q as [Q1 Q2]. exists (encode w). split; auto. split; [|split; [exists r; auto|]].
  - split; [exists w; auto|]. rewrite ink_encode by auto. apply filter_space. auto.
  - rewrite decode_encode by auto. auto.
Qed.
Lemma body_det s v v' : body s v -> body s v' -> v = v'.
Proof.
  assert (X : forall s v, body s v -> v = encode (drop_while is_uspace (decode s))).
  { clear. intros s v (w & -> & [W1 W2] & V & N). rewrite decode_app by auto. unfold ink in W2.
    apply utf8_decode in V as [_ V]. rewrite <- V at 1. f_equal. revert W2 N. generalize (decode w), (decode v). clear.
    induction l as [|c l IH]; intros m W N; cbn [app drop_while].
    - destruct m as [|c m]; auto. cbn [drop_while]. rewrite (N c m eq_refl). auto.
    - cbn [filter] in W. destruct (is_uspace c); [|discriminate]. cbn [negb] in W. apply IH; auto. }
  intros A B. apply X in A. apply X in B. congruence.
Qed.

Definition blank_at (t : str) (i : nat) : Prop := nth_error t i = Some SP \/ nth_error t i = Some TAB.
(** [start_from t s a]: [a] is where the edit for a selection starting at [s] starts. [r]..[s] are the blanks
    before [s]; all of them are included at the start of a line, and all but one elsewhere. *)
Definition start_from (t : str) (s a : nat) : Prop :=
  exists r, r <= s /\ (forall i, r <= i -> i < s -> blank_at t i) /\ (r = 0 \/ ~ blank_at t (r - 1)) /\
    a = (if (r =? 0) || match nth_error t (r - 1) with Some b => N.eqb b LF | None => false end then r
         else if r <? s then r + 1 else s).
(** [end_from t e b]: the blanks after [e] are included when the line or the text ends after them. *)
Definition end_from (t : str) (e b : nat) : Prop :=
  exists r, e <= r /\ r <= length t /\ (forall i, e <= i -> i < r -> blank_at t i) /\ ~ blank_at t r /\
    b = match nth_error t r with
        | None => r
        | Some x => if N.eqb x LF then r else e
        end.

Lemma is_byte_at_spec t i p : Utf8 t -> (forall b, p b = true -> (b < 128)%N) ->
  is_byte_at t i p = match nth_error t i with Some b => p b | None => false end.
Proof.
  intros HU P. unfold is_byte_at, str_get. destruct (nth_error t i) as [b|] eqn:E.
  - pose proof (nth_error_lt _ _ _ E). destruct (p b) eqn:Q.
    + pose proof (Bd_boundary _ _ (Bd_at_ascii _ _ _ HU E (P _ Q))) as ->.
      pose proof (Bd_boundary _ _ (Bd_after_ascii _ _ _ HU E (P _ Q))) as ->.
      replace (i <=? i + 1) with true by lia. replace (i + 1 <=? length t) with true by lia. cbn [andb].
      fold (sub t i (i + 1)). rewrite (sub_one _ _ _ E). auto.
    + destruct (_ && _); auto. fold (sub t i (i + 1)). rewrite (sub_one _ _ _ E). auto.
  - destruct (_ && _) eqn:Q; auto. apply nth_error_None in E. lia.
Qed.
Lemma is_eol_spec t i : Utf8 t -> is_eol t i = match nth_error t i with Some b => N.eqb b LF | None => false end.
Proof.
  intros H. unfold is_eol. rewrite is_byte_at_spec; auto; [|intros b; unfold LF; lia].
  destruct (nth_error t i); auto. apply N.eqb_sym.
Qed.
Lemma is_blank_spec t i : Utf8 t -> is_blank t i = true <-> blank_at t i.
Proof.
  intros H. unfold is_blank, blank_at. rewrite is_byte_at_spec; auto; [|intros b; unfold SP, TAB; lia].
  destruct (nth_error t i) as [b|].
  - split; intros Q.
    + destruct (N.eqb b SP) eqn:E; [left|right]; f_equal; lia.
    + destruct Q as [Q|Q]; inv Q; auto.
  - split; [discriminate|]. intros [Q|Q]; discriminate.
Qed.
Lemma is_blank_false t i : Utf8 t -> is_blank t i = false <-> ~ blank_at t i.
Proof.
  intros H. rewrite <- is_blank_spec by auto. destruct (is_blank t i); split; intros; try congruence; try tauto.
Qed.
Lemma extend_left_spec t : Utf8 t -> forall s, extend_left t s <= s /\
  (forall i, extend_left t s <= i -> i < s -> blank_at t i) /\ (extend_left t s = 0 \/ ~ blank_at t (extend_left t s - 1)).
Proof.
  intros HU. induction s as [|s IH]; cbn [extend_left]; [split; [auto|]; split; [lia|auto]|].
  destruct (is_blank t s) eqn:B.
  - destruct IH as (I1 & I2 & I3). split; [lia|]. split; auto. intros i A C.
    destruct (Nat.eq_dec i s) as [->|]; [apply is_blank_spec; auto|]. apply I2; lia.
  - split; auto. split; [lia|]. right. cbn. rewrite Nat.sub_0_r. apply is_blank_false; auto.
Qed.
Lemma extended_start_spec t s : Utf8 t -> start_from t s (extended_start t s).
Proof.
  intros HU. destruct (extend_left_spec t HU s) as (A & B & C). exists (extend_left t s).
  split; auto. split; auto. split; auto. unfold extended_start. cbv zeta. rewrite is_eol_spec by auto. auto.
Qed.
Lemma extend_right_spec t : Utf8 t -> forall k e, e + k = length t -> e <= extend_right t k e /\
  extend_right t k e <= length t /\
  (forall i, e <= i -> i < extend_right t k e -> blank_at t i) /\ ~ blank_at t (extend_right t k e).
Proof.
  intros HU. induction k as [|k IH]; intros e L; cbn [extend_right].
  - split; [lia|]. split; [lia|]. split; [lia|]. unfold blank_at. rewrite nth_error_ge by lia. intros [Q|Q]; discriminate.
  - destruct (is_blank t e) eqn:B.
    + destruct (IH (S e)) as (A1 & A2 & A3 & A4); [lia|]. split; [lia|]. split; [lia|]. split; auto.
      intros i I1 I2. destruct (Nat.eq_dec i e) as [->|]; [apply is_blank_spec; auto|]. apply A3; lia.
    + split; [lia|]. split; [lia|]. split; [lia|]. apply is_blank_false; auto.
Qed.
Lemma extended_end_spec t e : Utf8 t -> e <= length t -> end_from t e (extended_end t e).
Proof.
  intros HU L. destruct (extend_right_spec t HU (length t - e) e) as (A1 & A2 & A3 & A4); [lia|].
  exists (extend_right t (length t - e) e). set (r := extend_right t (length t - e) e) in *.
  split; auto. split; auto. split; auto. split; auto. unfold extended_end. cbv zeta. fold r. rewrite is_eol_spec by auto.
  destruct (nth_error t r) as [b|] eqn:E.
  - pose proof (nth_error_lt _ _ _ E). replace (r =? length t) with false by lia. auto.
  - apply nth_error_None in E. replace (r =? length t) with true by lia. auto.
Qed.
Lemma start_from_det t s a a' : start_from t s a -> start_from t s a' -> a = a'.
Proof.
  intros (r & A1 & A2 & A3 & ->) (r' & B1 & B2 & B3 & ->). enough (r = r') by (subst; reflexivity).
  destruct (Nat.lt_trichotomy r r') as [L|[L|L]]; auto; exfalso.
  - destruct B3 as [B3|B3]; [lia|]. apply B3, A2; lia.
  - destruct A3 as [A3|A3]; [lia|]. apply A3, B2; lia.
Qed.
Lemma end_from_det t e b b' : end_from t e b -> end_from t e b' -> b = b'.
Proof.
  intros (r & A1 & A2 & A3 & A4 & ->) (r' & B1 & B2 & B3 & B4 & ->). enough (r = r') by (subst; reflexivity).
  destruct (Nat.lt_trichotomy r r') as [L|[L|L]]; auto; exfalso.
  - apply A4, B3; lia.
  - apply B4, A3; lia.
Qed.
Lemma start_bd t s a : Utf8 t -> s <= length t -> is_boundary t s = true -> start_from t s a -> Bd t a /\ a <= s.
Proof.
  intros HU L B (r & A1 & A2 & A3 & ->).
  assert (R : Bd t r).
  { destruct (Nat.eq_dec r s) as [->|]; [apply boundary_Bd; auto|].
    destruct (A2 r) as [Q|Q]; try lia; eapply Bd_at_ascii; eauto; reflexivity. }
  destruct (_ || _); [auto|]. destruct (r <? s) eqn:Q; [|split; auto; apply boundary_Bd; auto].
  split; [|lia]. destruct (A2 r) as [E|E]; try lia; eapply Bd_after_ascii; eauto; reflexivity.
Qed.
Lemma end_bd t e b : Utf8 t -> e <= length t -> is_boundary t e = true -> end_from t e b -> Bd t b /\ e <= b.
Proof.
  intros HU L B (r & A1 & A2 & A3 & A4 & ->).
  assert (E : Bd t e) by (apply boundary_Bd; auto).
  destruct (nth_error t r) as [x|] eqn:X.
  - destruct (N.eqb x LF) eqn:Q; [|auto]. assert (x = LF) by lia. subst x. split; auto. eapply Bd_at_ascii; eauto; reflexivity.
  - apply nth_error_None in X. replace r with (length t) by lia. split; auto. apply Bd_len; auto.
Qed.

(** A text that ends within a tag: a '<' without a '>' after it *)
Definition in_open_tag (s : str) : Prop := exists x y, s = x ++ LT :: y /\ ~ In GT y.
Lemma inside_tag_spec s : inside_tag s = true <-> in_open_tag s.
Proof.
  unfold inside_tag, in_open_tag. split.
  - assert (X : forall l, lt_first l = true -> exists y x, l = y ++ LT :: x /\ ~ In GT y).
    { induction l as [|b l IH]; cbn [lt_first]; [discriminate|]. destruct (N.eqb b 60) eqn:E.
      - intros _. exists [], l. assert (b = LT) by (unfold LT; lia). subst b. auto.
      - destruct (N.eqb b 62) eqn:E'; [discriminate|]. intros H. apply IH in H as (y & x & -> & N).
        exists (b :: y), x. split; auto. intros [Q|Q]; auto. subst b. discriminate. }
    intros H. apply X in H as (y & x & E & G). exists (rev x), (rev y). split.
    + apply (f_equal (@rev N)) in E. rewrite rev_involutive, rev_app_distr in E. cbn [rev] in E.
      rewrite app_assoc_reverse in E. auto.
    + rewrite <- in_rev. auto.
  - intros (x & y & -> & N). rewrite rev_app_distr. cbn [rev]. rewrite app_assoc_reverse. cbn [app].
    assert (N' : ~ In GT (rev y)) by (rewrite <- in_rev; auto). revert N'. generalize (rev y), (rev x). clear.
    induction l as [|b l IH]; intros m N; cbn [app lt_first]; auto.
    destruct (N.eqb b 60); auto. destruct (N.eqb b 62) eqn:E; [|apply IH; intros Q; apply N; cbn; auto].
    exfalso. apply N. left. unfold GT. lia.
Qed.

(** ** C46: one edit for the selected text *)
(** The whole document *)
Theorem C46_whole : forall U d o cs es, format U d None o cs = Ok es ->
  exists x, es = [mkEdit (mkRange (mkPos 0 0) (position_at d (length (d_text d)))) x].
Proof.
  intros U d o cs es H. unfold format, format_value in H. apply bind_ok in H as (x & _ & H). inv H. eauto.
Qed.
Print Assumptions C46_whole.

(** The start of the edit: the position of [a], or, when a line feed comes before it, the start of
    the line after it. *)
Definition edit_start (d : textdoc) (a : nat) : position :=
  match nth_error (d_text d) (a - 1) with
  | Some b => if N.eqb b LF then mkPos (line (position_at d a) + 1) 0 else position_at d a
  | None => position_at d a
  end.
Lemma range_unfold U d r o cs : textdoc_ok d ->
  exists a b, start_from (d_text d) (offset_at d (r_start r)) a /\ end_from (d_text d) (offset_at d (r_end r)) b /\
  Bd (d_text d) a /\ Bd (d_text d) b /\
  let r' := mkRange (edit_start d a) (position_at d b) in
  format U d (Some r) o cs =
    (do _ <- usub a 1;
     do value <- slice (d_text d) a b;
     if inside_tag (sub (d_text d) 0 a) then Ok [mkEdit r' value]
     else do level <- compute_indent_level (d_text d) (offset_at d (mkPos (line (r_start r')) 0)) o;
          format_value U o cs value r' level).
Proof.
  intros []. destruct (do_offset (r_start r)) as [A1 A2]. destruct (do_offset (r_end r)) as [B1 B2].
  pose proof (extended_start_spec (d_text d) (offset_at d (r_start r)) do_utf8) as SF.
  pose proof (extended_end_spec (d_text d) (offset_at d (r_end r)) do_utf8 B1) as EF.
  destruct (start_bd _ _ _ do_utf8 A1 A2 SF) as [Ba _]. destruct (end_bd _ _ _ do_utf8 B1 B2 EF) as [Bb _].
  exists (extended_start (d_text d) (offset_at d (r_start r))), (extended_end (d_text d) (offset_at d (r_end r))).
  repeat (split; [assumption|]). cbv zeta. unfold format. cbv zeta.
  set (a := extended_start (d_text d) (offset_at d (r_start r))) in *.
  set (b := extended_end (d_text d) (offset_at d (r_end r))) in *.
  unfold usub. destruct (1 <=? a) eqn:L; [|reflexivity]. cbn [bind].
  destruct (slice_bd (d_text d) 0 a (Bd_0 _ do_utf8) Ba ltac:(lia)) as [-> _]. cbn [bind].
  rewrite is_eol_spec by auto. unfold edit_start. destruct (nth_error (d_text d) (a - 1)) as [x|]; [|reflexivity].
  destruct (N.eqb x LF); reflexivity.
Qed.
Lemma slice_bd_le t a b v : slice t a b = Ok v -> a <= b /\ v = sub t a b.
Proof. intros H. unfold slice in H. destruct (_ && _) eqn:E; [|discriminate]. inv H. split; [lia|reflexivity]. Qed.

(** A range: the edit goes from the start of the selection, extended, to its end, extended.
    If the selection starts inside a tag, the text stays as it is. *)
Theorem C46_range : forall U d r o cs es, textdoc_ok d -> format U d (Some r) o cs = Ok es ->
  exists a b x,
    start_from (d_text d) (offset_at d (r_start r)) a /\ end_from (d_text d) (offset_at d (r_end r)) b /\
    0 < a /\ a <= b /\
    es = [mkEdit (mkRange (edit_start d a) (position_at d b)) x] /\
    (in_open_tag (sub (d_text d) 0 a) -> x = sub (d_text d) a b).
Proof.
  intros U d r o cs es HD H. destruct (range_unfold U d r o cs HD) as (a & b & A & B & _ & _ & E). cbv zeta in E.
  rewrite E in H. clear E. apply bind_ok in H as (k & K & H). unfold usub in K. destruct (1 <=? a) eqn:L; [|discriminate].
  apply bind_ok in H as (v & V & H). apply slice_bd_le in V as [V ->].
  destruct (inside_tag (sub (d_text d) 0 a)) eqn:I.
  - inv H. exists a, b, (sub (d_text d) a b). repeat (split; [auto; lia|]). auto.
  - apply bind_ok in H as (lv & _ & H). unfold format_value in H. apply bind_ok in H as (x & _ & H). inv H.
    exists a, b. eexists. repeat (split; [eauto; lia|]). intros Q. apply inside_tag_spec in Q. congruence.
Qed.
Print Assumptions C46_range.

(** Away from the start of a line the edit replaces exactly the text from [a] to [b], which differs
    from the selection by blanks only. *)
Theorem C46_replaces : forall U d r o cs es a b, textdoc_ok d -> format U d (Some r) o cs = Ok es ->
  start_from (d_text d) (offset_at d (r_start r)) a -> end_from (d_text d) (offset_at d (r_end r)) b ->
  nth_error (d_text d) (a - 1) <> Some LF ->
  exists e, es = [e] /\ offset_at d (r_start (te_range e)) = a /\ offset_at d (r_end (te_range e)) = b /\
    a <= offset_at d (r_start r) /\ offset_at d (r_end r) <= b /\
    (forall i, a <= i -> i < offset_at d (r_start r) -> blank_at (d_text d) i) /\
    (forall i, offset_at d (r_end r) <= i -> i < b -> blank_at (d_text d) i).
Proof.
  intros U d r o cs es a b HD H A B N. destruct (C46_range _ _ _ _ _ _ HD H) as (a' & b' & x & A' & B' & P & L & -> & _).
  assert (a' = a) by (eapply start_from_det; eauto). assert (b' = b) by (eapply end_from_det; eauto). subst a' b'. clear A' B'.
  destruct HD. destruct (do_offset (r_start r)) as [A1 A2]. destruct (do_offset (r_end r)) as [B1 B2].
  destruct (start_bd _ _ _ do_utf8 A1 A2 A) as [Ba La]. destruct (end_bd _ _ _ do_utf8 B1 B2 B) as [Bb Lb].
  eexists. split; [reflexivity|]. cbn [te_range r_start r_end]. split.
  { unfold edit_start. destruct (nth_error (d_text d) (a - 1)) as [y|] eqn:E.
    - destruct (N.eqb y LF) eqn:Q; [exfalso; apply N; f_equal; lia|]. apply do_inv; [apply Bd_le|apply Bd_boundary]; auto.
    - apply do_inv; [apply Bd_le|apply Bd_boundary]; auto. }
  split; [apply do_inv; [apply Bd_le|apply Bd_boundary]; auto|]. split; auto. split; auto. split.
  - destruct A as (q & Q1 & Q2 & Q3 & Q4). intros i I1 I2. apply Q2; auto. revert Q4. destruct (_ || _); [lia|].
    destruct (q <? _); lia.
  - destruct B as (q & Q1 & Q2 & Q3 & Q4 & Q5). intros i I1 I2. apply Q3; auto. revert Q5.
    destruct (nth_error (d_text d) q) as [y|]; [destruct (N.eqb y LF)|]; lia.
Qed.
Print Assumptions C46_replaces.

(** ** C54: the new text has the characters of the elements in the old text, in order; only white
    space differs. [v] is the selected text without the white space at its start. *)
Definition formatted (U : unicode) (cs : bool) (s x : str) : Prop :=
  exists v roots, body s v /\ parse U v cs html5_void = Ok roots /\ ink x = flat_map (element_ink v) roots.
Lemma format_value_spec U o cs s r level es : Utf8 s -> format_value U o cs s r level = Ok es ->
  exists x, es = [mkEdit r x] /\ formatted U cs s x.
Proof.
  intros HU H. unfold format_value in H. apply bind_ok in H as (y & Y & H). inv H. eexists. split; [reflexivity|].
  pose proof (trim_left_body s HU) as B. set (v := trim_left s) in *. exists v.
  assert (Uv : Utf8 v) by (destruct B as (w & _ & _ & B & _); auto).
  assert (P := Y). unfold html_beautify in P. apply bind_ok in P as (roots & P & _). exists roots. split; auto. split; auto.
  destruct (html_beautify_spec U v o cs roots Uv P) as [(N & x & X1 & X2 & X3)|(_ & X)]; [|congruence].
  rewrite X1 in Y. inv Y. rewrite <- X3. apply reindent_ink; auto.
Qed.
Theorem C54_whole : forall U d o cs e, textdoc_ok d -> format U d None o cs = Ok [e] ->
  formatted U cs (d_text d) (te_text e).
Proof.
  intros U d o cs e HD H. unfold format in H. apply format_value_spec in H as (x & E & F); [|apply HD]. inv E. auto.
Qed.
Print Assumptions C54_whole.
Theorem C54_range : forall U d r o cs e a b, textdoc_ok d -> format U d (Some r) o cs = Ok [e] ->
  start_from (d_text d) (offset_at d (r_start r)) a -> end_from (d_text d) (offset_at d (r_end r)) b ->
  ~ in_open_tag (sub (d_text d) 0 a) ->
  formatted U cs (sub (d_text d) a b) (te_text e).
Proof.
  intros U d r o cs e a b HD H A B N. destruct (range_unfold U d r o cs HD) as (a' & b' & A' & B' & Ba & Bb & E). cbv zeta in E.
  assert (a' = a) by (eapply start_from_det; eauto). assert (b' = b) by (eapply end_from_det; eauto). subst a' b'. clear A' B'.
  rewrite E in H. clear E. apply bind_ok in H as (k & K & H).
  apply bind_ok in H as (v & V & H). apply slice_bd_le in V as [V ->].
  destruct (inside_tag (sub (d_text d) 0 a)) eqn:I; [exfalso; apply N; apply inside_tag_spec; auto|].
  apply bind_ok in H as (lv & _ & H). apply format_value_spec in H as (x & Ex & F); [|apply Bd_sub; auto]. inv Ex. auto.
Qed.
Print Assumptions C54_range.

(** ** C55: formatting a document returns, unless the parser fails or an element that would be
    written has no name. *)
Theorem C55_whole : forall U d o cs v, textdoc_ok d -> body (d_text d) v ->
  match parse U v cs html5_void with
  | Ok roots => (all_named roots /\ exists e, format U d None o cs = Ok [e]) \/
                (some_nameless roots /\ format U d None o cs = Panic PUnwrap)
  | Panic p => format U d None o cs = Panic p
  | OutOfFuel => False
  end.
Proof.
  intros U d o cs v HD B. assert (v = trim_left (d_text d)).
  { eapply body_det; eauto. apply trim_left_body. apply HD. }
  assert (Uv : Utf8 v) by (destruct B as (w & _ & _ & Q & _); auto).
  unfold format, format_value. rewrite <- H.
  destruct (parse U v cs html5_void) as [roots|p|] eqn:P.
  - destruct (html_beautify_spec U v o cs roots Uv P) as [(N & x & X1 & _)|(N & X)].
    + left. split; auto. rewrite X1. cbn [bind]. eauto.
    + right. split; auto. rewrite X. auto.
  - unfold html_beautify. rewrite P. auto.
  - destruct (C11_parse_total U v cs html5_void Uv) as [(l & q & _ & Q)|(q & _ & Q)]; congruence.
Qed.
Print Assumptions C55_whole.
(** For a range, moreover: the edit must not start at offset 0, nor on the first line, and the size of a
    tab must not be 0. *)
Theorem C55_range : forall U d r o cs a b v roots, textdoc_ok d ->
  start_from (d_text d) (offset_at d (r_start r)) a -> end_from (d_text d) (offset_at d (r_end r)) b ->
  0 < a -> a <= b -> ~ in_open_tag (sub (d_text d) 0 a) ->
  0 < offset_at d (mkPos (line (edit_start d a)) 0) -> 0 < tab_size o ->
  body (sub (d_text d) a b) v -> parse U v cs html5_void = Ok roots -> all_named roots ->
  exists e, format U d (Some r) o cs = Ok [e].
Proof.
  intros U d r o cs a b v roots HD A B Pa L N P0 T0 BV P NM.
  destruct (range_unfold U d r o cs HD) as (a' & b' & A' & B' & Ba & Bb & E). cbv zeta in E.
  assert (a' = a) by (eapply start_from_det; eauto). assert (b' = b) by (eapply end_from_det; eauto). subst a' b'. clear A' B'.
  rewrite E. unfold usub. replace (1 <=? a) with true by lia. cbn [bind].
  destruct (slice_bd _ a b Ba Bb L) as [-> Us]. cbn [bind].
  destruct (inside_tag _) eqn:I; [eauto|]. cbn [r_start].
  set (i := offset_at d (mkPos (line (edit_start d a)) 0)) in *.
  assert (Li : i <= length (d_text d)) by (apply HD).
  unfold compute_indent_level, usub. replace (1 <=? i) with true by lia. cbn [bind].
  assert (C : exists m, count_indent (tab_size o) (length (d_text d) - i) (skipn (i - 1) (d_text d)) = Ok m).
  { assert (Q : length (d_text d) - i <= length (skipn (i - 1) (d_text d))) by (rewrite skipn_length; lia).
    revert Q. generalize (length (d_text d) - i), (skipn (i - 1) (d_text d)). clear.
    induction n as [|k IH]; intros s Q; cbn [count_indent]; eauto. destruct s as [|x s]; [cbn in Q; lia|]. cbn [length] in Q.
    destruct (IH s) as (m & M); [lia|]. destruct (N.eqb x SP); [rewrite M; cbn; eauto|].
    destruct (N.eqb x TAB); [rewrite M; cbn; eauto|eauto]. }
  destruct C as (m & ->). cbn [bind]. replace (tab_size o =? 0) with false by lia. cbn [bind].
  assert (v = trim_left (sub (d_text d) a b)) by (eapply body_det; eauto; apply trim_left_body; auto).
  assert (Uv : Utf8 v) by (destruct BV as (w & _ & _ & Q & _); auto).
  unfold format_value. rewrite <- H.
  destruct (html_beautify_spec U v o cs roots Uv P) as [(_ & x & X & _)|((y & Y1 & Y2) & _)].
  - rewrite X. cbn [bind]. eauto.
  - exfalso. eapply NM; eauto.
Qed.
Print Assumptions C55_range.

(** ** C56: in a tidy document only white space changes *)
(** The tags of [n] are written, up to white space, as the formatter writes them: name, attributes in
    order, [>], and an end tag of the same name; or [/>] and neither children nor end tag. *)
Definition tidy (t : str) (n : node) : Prop :=
  exists name, n_tag n = Some name /\
  match n_ste n, n_ets n with
  | Some s, Some e =>
      ink (sub t (n_start n) s) = bs "<" ++ ink name ++ flat_map (attr_ink n) (attribute_names_by_order n) ++ bs ">" /\
      ink (sub t e (n_end n)) = bs "</" ++ ink name ++ bs ">"
  | _, _ =>
      ink (sub t (n_start n) (n_end n)) = bs "<" ++ ink name ++ flat_map (attr_ink n) (attribute_names_by_order n) ++ bs "/>"
  end.
(** Between [a] and [b] there is only white space around the nodes [l]. *)
Fixpoint only_elements (t : str) (a : nat) (l : list node) (b : nat) : Prop :=
  match l with
  | [] => ink (sub t a b) = []
  | c :: r => ink (sub t a (n_start c)) = [] /\ only_elements t (n_end c) r b
  end.

Section Tidy.
Variable t : str.
Lemma ink_split a b c : Bd t a -> Bd t b -> a <= b -> b <= c -> ink (sub t a c) = ink (sub t a b) ++ ink (sub t b c).
Proof. intros A B L L'. rewrite (sub_split t a b c) by auto. apply ink_app. apply Bd_sub; auto. Qed.
Lemma inner_tidy e : forall l prev, Forall (fun n => ink (sub t (n_start n) (n_end n)) = element_ink t n) l -> Forall (fnode t) l ->
  Bd t prev -> chain prev l e -> ink (sub t prev e) = inner_ink t e prev l.
Proof.
  induction l as [|c r IH]; intros prev E F B C; cbn [inner_ink]; auto. inv E. inv F. cbn [chain] in C. destruct C as (C1 & C2 & C3).
  assert (n_end c <= e) by (eapply chain_le; eauto). destruct H3.
  rewrite (ink_split prev (n_start c) e) by (auto; lia). rewrite (ink_split (n_start c) (n_end c) e) by (auto; lia).
  rewrite H1. f_equal. f_equal. apply IH; auto.
Qed.
Lemma tidy_ink n : all_nodes (fun n => fnode t n /\ tidy t n) n -> ink (sub t (n_start n) (n_end n)) = element_ink t n.
Proof.
  revert n. apply (node_induction (fun n => all_nodes (fun n => fnode t n /\ tidy t n) n ->
    ink (sub t (n_start n) (n_end n)) = element_ink t n)). intros n IH A. inv A. destruct H as [F (name & T & E)].
  rewrite element_ink_eq, T. destruct (n_ets n) as [e|] eqn:Ee.
  - destruct (fn_ends _ _ F e Ee) as (s & Es & Bs & Be & L1 & L2 & L3 & C). rewrite Es in E |- *. destruct E as [E1 E2].
    pose proof (fn_start _ _ F) as B0.
    rewrite (ink_split (n_start n) s (n_end n)), (ink_split s e (n_end n)) by (auto; lia).
    rewrite E1, E2. rewrite (inner_tidy e (n_children n) s); auto; [rewrite ?app_assoc_reverse; reflexivity| |].
    + rewrite Forall_forall in *. intros c Ic. apply IH; auto.
    + rewrite Forall_forall in *. intros c Ic. apply H0 in Ic. inv Ic. tauto.
  - destruct (n_ste n); auto.
Qed.
Lemma roots_tidy b : forall l a, Forall (all_nodes (fun n => fnode t n /\ tidy t n)) l -> Bd t a -> chain a l b ->
  only_elements t a l b -> ink (sub t a b) = flat_map (element_ink t) l.
Proof.
  induction l as [|c r IH]; intros a F B C O; cbn [flat_map only_elements chain] in *; auto. inv F.
  destruct C as (C1 & C2 & C3). destruct O as [O1 O2]. assert (n_end c <= b) by (eapply chain_le; eauto).
  assert (FC : fnode t c) by (inv H1; tauto). destruct FC.
  rewrite (ink_split a (n_start c) b), (ink_split (n_start c) (n_end c) b) by (auto; lia).
  rewrite O1, tidy_ink by auto. cbn [app]. f_equal. apply IH; auto.
Qed.
End Tidy.

Theorem C56_white_space_only : forall U d o cs e v roots, textdoc_ok d -> format U d None o cs = Ok [e] ->
  body (d_text d) v -> parse U v cs html5_void = Ok roots ->
  Forall (tidy v) (doc_nodes roots) -> only_elements v 0 roots (length v) ->
  ink (te_text e) = ink (d_text d).
Proof.
  intros U d o cs e v roots HD H B P T O. destruct (C54_whole _ _ _ _ _ HD H) as (v' & roots' & B' & P' & ->).
  assert (v' = v) by (eapply body_det; eauto). subst v'. rewrite P in P'. inv P'.
  destruct B as (w & -> & W & Uv & _). rewrite ink_white by auto.
  rewrite <- (sub_full v) at 2. symmetry. apply roots_tidy.
  - pose proof (parsed_fnode _ _ _ _ _ Uv P) as F. apply all_nodes_roots in F. apply all_nodes_roots.
    rewrite Forall_forall in *. unfold doc_nodes in T. intros n I. split; auto.
  - apply Bd_0; auto.
  - eapply C12_spans; eauto.
  - auto.
Qed.
Print Assumptions C56_white_space_only.

(** ** C57: layout of the start tags *)
(** [at_depth n k m]: [m] is written inside [n], [k] levels down. *)
Inductive at_depth : node -> nat -> node -> Prop :=
| AD_here n : at_depth n 0 n
| AD_child n c k m : n_ets n <> None -> In c (n_children n) -> at_depth c k m -> at_depth n (S k) m.
(** An attribute as written *)
Definition attr_text (n : node) (name : str) : str :=
  name ++ match attr_get name (n_attrs n) with
          | Some (mkAttr (Some v) _) => bs "=" ++ v
          | _ => []
          end.
(** [k] levels of indentation: the tab size in spaces, or one tab, for each. *)
Definition indentation (o : format_options) (k : nat) : str :=
  if insert_spaces o then repeat SP (k * tab_size o) else repeat TAB k.
(** Attributes on lines of their own have the indentation of the tag and, with spaces, that of
    their option or else one level more. With tabs there is an empty line instead. *)
Definition attr_indentation (o : format_options) (k : nat) : str :=
  indentation o k ++
  match insert_spaces o, wrap_attributes_indent_size o with
  | true, Some n => repeat SP n
  | true, None => repeat SP (tab_size o)
  | false, Some 0 => []
  | false, _ => [LF]
  end.
Definition one_line (o : format_options) (k : nat) (n : node) (tag : str) : str :=
  indentation o k ++ bs "<" ++ tag ++ flat_map (fun x => [SP] ++ attr_text n x) (attribute_names_by_order n) ++
  (if is_self_closing n then bs " />" else bs ">").
Definition many_lines (o : format_options) (k : nat) (n : node) (tag : str) : str :=
  indentation o k ++ bs "<" ++ tag ++
  flat_map (fun x => [LF] ++ attr_indentation o k ++ attr_text n x) (attribute_names_by_order n) ++
  [LF] ++ indentation o k ++ (if is_self_closing n then bs "/>" else bs ">").
Definition fits (o : format_options) (s : str) : Prop :=
  match wrap_line_length o with None => True | Some w => length s <= w end.

Section Layout.
Variable t : str.
Variable o : format_options.

Lemma indentation_eq k : get_indent o k = indentation o k.
Proof. unfold get_indent, indentation, rep. rewrite Nat.mul_comm. reflexivity. Qed.
Lemma attr_indentation_eq k : get_attr_indent o k = attr_indentation o k.
Proof.
  unfold get_attr_indent, attr_indentation. rewrite indentation_eq. f_equal. unfold rep.
  destruct (wrap_attributes_indent_size o) as [[|i]|], (insert_spaces o); reflexivity.
Qed.
Lemma attr_get_in m x a : NoDup (map fst m) -> In (x, a) m -> attr_get x m = Some a.
Proof.
  induction m as [|[y b] m IH]; cbn [map fst attr_get In]; intros N I; [contradiction|]. inv N.
  destruct (beq x y) eqn:E.
  - apply beq_eq in E. subst y. destruct I as [I|I]; [inv I; auto|].
    exfalso. apply H1. apply (in_map fst) in I. auto.
  - destruct I as [I|I]; [|auto]. inv I. rewrite beq_refl in E. discriminate.
Qed.
Lemma attrs_length n : NoDup (map fst (n_attrs n)) ->
  length (flat_map (fun x => [SP] ++ attr_text n x) (attribute_names_by_order n)) = attrs_len n.
Proof.
  intros N. unfold attribute_names_by_order, attrs_len.
  assert (G : forall x, In x (sort_by_off (n_attrs n)) -> attr_get (fst x) (n_attrs n) = Some (snd x)).
  { intros [x a] I. apply attr_get_in; auto. eapply Permutation_in; [symmetry; apply sort_perm|auto]. }
  transitivity (fold_right (fun x s => attr_len x + s) 0 (sort_by_off (n_attrs n))).
  - revert G. generalize (sort_by_off (n_attrs n)). induction l as [|x l IH]; intros G; auto.
    cbn [map flat_map fold_right]. rewrite app_length, IH by (intros; apply G; cbn; auto). f_equal.
    unfold attr_text, attr_len. rewrite (G x (or_introl eq_refl)). destruct x as [x [[v|] off]]; cbn [fst snd a_value].
    + rewrite !app_length. change (length (bs "=")) with 1. cbn [length]. lia.
    + rewrite !app_length. cbn [length]. lia.
  - assert (X : forall l l', Permutation l l' -> fold_right (fun x s => attr_len x + s) 0 l = fold_right (fun x s => attr_len x + s) 0 l').
    { induction 1; cbn [fold_right]; lia. }
    apply X. symmetry. apply sort_perm.
Qed.
Lemma left_len n level tag : NoDup (map fst (n_attrs n)) -> n_tag n = Some tag ->
  get_left_tag_len o n level = Some (length (one_line o level n tag)).
Proof.
  intros N T. unfold get_left_tag_len, one_line. rewrite T, indentation_eq. f_equal. rewrite !app_length, (attrs_length n N).
  change (length (bs "<")) with 1. destruct (is_self_closing n).
  - change (length (bs " />")) with 3. lia.
  - change (length (bs ">")) with 1. lia.
Qed.
Lemma wrap_fits n level tag : NoDup (map fst (n_attrs n)) -> n_tag n = Some tag ->
  (node_attrs_is_wrap o n level = false /\ fits o (one_line o level n tag)) \/
  (node_attrs_is_wrap o n level = true /\ ~ fits o (one_line o level n tag)).
Proof.
  intros N T. unfold node_attrs_is_wrap, fits. destruct (wrap_line_length o) as [w|]; [|auto].
  rewrite (left_len n level tag) by auto. destruct (w <? _) eqn:E; [right|left]; split; auto; lia.
Qed.
Lemma format_attrs_eq n level w : format_attrs o w level n =
  flat_map (fun x => (if w then [LF] ++ attr_indentation o level else [SP]) ++ attr_text n x) (attribute_names_by_order n).
Proof. rewrite <- attr_indentation_eq. reflexivity. Qed.

Definition start_text (k : nat) (n : node) (tag s : str) : Prop :=
  (fits o (one_line o k n tag) /\ s = one_line o k n tag) \/
  (~ fits o (one_line o k n tag) /\ s = many_lines o k n tag).

Lemma node_start n level x : fnode t n -> beautify_node t o n level = Ok x ->
  exists tag s post, n_tag n = Some tag /\ start_text level n tag s /\ x = s ++ post.
Proof.
  intros F H. rewrite beautify_node_eq in H. apply bind_ok in H as (tag & T & H).
  destruct (n_tag n) as [tag'|] eqn:Tn; [|discriminate]. apply Ok_inj in T. subst tag'. exists tag.
  pose proof (wrap_fits n level tag (fn_keys _ _ F) Tn) as W. unfold open_text in H. rewrite format_attrs_eq, ?indentation_eq in H.
  unfold start_text. destruct W as [[W Fi]|[W Fi]]; rewrite W in H.
  - exists (one_line o level n tag). destruct (n_ets n) as [e|] eqn:E.
    + apply bind_ok in H as (s & S & H). apply bind_ok in H as (ch & C & H). apply bind_ok in H as (inner & I & H).
      apply Ok_inj in H. subst x. match goal with |- exists post, _ /\ _ /\ _ ++ _ ++ _ ++ ?p = _ => exists p end.
      split; auto. split; auto. unfold one_line, is_self_closing. rewrite E, ?app_assoc_reverse. reflexivity.
    + apply Ok_inj in H. subst x. exists []. split; auto. split; auto. unfold one_line, is_self_closing.
      rewrite E, ?app_assoc_reverse, app_nil_r. reflexivity.
  - exists (many_lines o level n tag). destruct (n_ets n) as [e|] eqn:E.
    + apply bind_ok in H as (s & S & H). apply bind_ok in H as (ch & C & H). apply bind_ok in H as (inner & I & H).
      apply Ok_inj in H. subst x. match goal with |- exists post, _ /\ _ /\ _ ++ _ ++ _ ++ ?p = _ => exists p end.
      split; auto. split; auto. unfold many_lines, is_self_closing. rewrite E, ?app_assoc_reverse. reflexivity.
    + apply Ok_inj in H. subst x. exists []. split; auto. split; auto. unfold many_lines, is_self_closing.
      rewrite E, ?app_assoc_reverse, app_nil_r. reflexivity.
Qed.

Lemma children_in level e c : forall l prev x, children_text t o level e prev l = Ok x -> In c l ->
  exists pre y post, beautify_node t o c (S level) = Ok y /\ x = pre ++ [LF] ++ y ++ post.
Proof.
  induction l as [|c' r IH]; intros prev x H I; [contradiction|]. cbn [children_text] in H.
  apply bind_ok in H as (text & T & H). apply bind_ok in H as (y & Y & H). apply bind_ok in H as (rest & R & H). inv H.
  destruct I as [->|I]; [exists (beautify_text o text (S level)), y, rest; auto|]. destruct r as [|c2 r]; [destruct I|].
  destruct (IH _ _ R I) as (pre & z & post & Z1 & ->). exists (beautify_text o text (S level) ++ [LF] ++ y ++ pre), z, post.
  split; auto. rewrite ?app_assoc_reverse. reflexivity.
Qed.
Lemma depth_text n k m : at_depth n k m -> forall level x, beautify_node t o n level = Ok x ->
  exists pre y post, beautify_node t o m (k + level) = Ok y /\ x = pre ++ y ++ post /\ (k <> 0 -> exists q, pre = q ++ [LF]).
Proof.
  induction 1 as [n|n c k m E I D IH]; intros level x H.
  - exists [], x, []. rewrite app_nil_r. split; auto. split; auto. congruence.
  - rewrite beautify_node_eq in H. apply bind_ok in H as (tag & T & H). destruct (n_ets n) as [e|]; [|congruence].
    apply bind_ok in H as (s & S & H). apply bind_ok in H as (ch & C & H). apply bind_ok in H as (inner & Q & H). apply Ok_inj in H. subst x.
    destruct (children_in _ _ _ _ _ _ C I) as (pre & y & post & Y & ->). destruct (IH _ _ Y) as (p2 & z & q2 & Z & -> & L).
    replace (k + Datatypes.S level) with (Datatypes.S k + level) in Z by lia.
    match goal with |- exists pre y post, _ /\ ?a ++ ?b ++ ?c ++ ((?p ++ ?l ++ (?p' ++ ?zz ++ ?q') ++ ?q) ++ ?f) ++ ?g = _ /\ _ =>
      exists (a ++ b ++ c ++ p ++ l ++ p'), zz, (q' ++ q ++ f ++ g) end.
    split; auto. split; [rewrite ?app_assoc_reverse; reflexivity|]. intros _.
    destruct (Nat.eq_dec k 0) as [->|K].
    + inv D. assert (p2 = []).
      { change (1 + level) with (Datatypes.S level) in Z. rewrite Z in Y. apply Ok_inj in Y. apply (f_equal (@length N)) in Y.
        rewrite !app_length in Y. destruct p2; auto. cbn [length] in Y. lia. }
      subst p2. eexists. rewrite app_nil_r, ?app_assoc. reflexivity.
    + destruct (L K) as (q & ->). eexists. rewrite ?app_assoc. reflexivity.
Qed.
End Layout.

(** Every element that is written, [k] levels below its root, has its start tag on one line, indented
    [k] levels, if that line is short enough, and otherwise with every attribute on a line of its own;
    below the roots a line feed comes before it. *)
Theorem C57_start_tags : forall U d o cs e v roots r k m, textdoc_ok d -> format U d None o cs = Ok [e] ->
  body (d_text d) v -> parse U v cs html5_void = Ok roots -> In r roots -> at_depth r k m ->
  exists tag pre s post, n_tag m = Some tag /\ start_text o k m tag s /\ te_text e = pre ++ s ++ post /\
    (k <> 0 -> exists q, pre = q ++ [LF]).
Proof.
  intros U d o cs e v roots r k m HD H B P I D. unfold format, format_value in H. apply bind_ok in H as (x & X & H). inv H.
  cbn [te_text reindent Nat.ltb Nat.leb]. assert (v = trim_left (d_text d)).
  { eapply body_det; eauto. apply trim_left_body. apply HD. }
  assert (Uv : Utf8 v) by (destruct B as (w & _ & _ & Q & _); auto). subst v. set (v := trim_left (d_text d)) in *.
  unfold html_beautify in X. rewrite P in X. cbn [bind] in X. apply bind_ok in X as (y & Y & X).
  assert (FM : fnode v m).
  { pose proof (parsed_fnode _ _ _ _ _ Uv P) as F. rewrite Forall_forall in F. specialize (F r I). revert F. clear - D.
    induction D; intros F; inv F; auto. apply IHD. rewrite Forall_forall in H2. auto. }
  assert (G : exists tag pre s post, n_tag m = Some tag /\ start_text o k m tag s /\ y = pre ++ s ++ post /\
    (k <> 0 -> exists q, pre = q ++ [LF])).
  { clear X P. revert y Y I. induction roots as [|r' l IH]; intros y Y I; [contradiction|]. cbn [beautify_roots] in Y.
    apply bind_ok in Y as (y1 & Y1 & Y). apply bind_ok in Y as (y2 & Y2 & Y). inv Y. destruct I as [->|I].
    - destruct (depth_text v o r k m D 0 y1 Y1) as (pre & z & post & Z & -> & L). rewrite Nat.add_0_r in Z.
      destruct (node_start v o m k z FM Z) as (tag & s & post' & T & S & ->). exists tag, pre, s, (post' ++ post ++ y2).
      split; auto. split; auto. split; auto. rewrite ?app_assoc_reverse. reflexivity.
    - destruct (IH _ Y2 I) as (tag & pre & s & post & T & S & -> & L). exists tag, (y1 ++ pre), s, post.
      split; auto. split; auto. split; [rewrite app_assoc_reverse; auto|]. intros K. destruct (L K) as (q & ->).
      exists (y1 ++ q). rewrite app_assoc_reverse. auto. }
  destruct G as (tag & pre & s & post & T & S & -> & L). inv X.
  destruct (_ && _).
  - exists tag, pre, s, (post ++ [LF]). split; auto. split; auto. split; auto. rewrite ?app_assoc_reverse. auto.
  - exists tag, pre, s, post. auto.
Qed.
Print Assumptions C57_start_tags.

(** ** Examples: the hypotheses are met, and what the theorems leave out *)
Definition fdoc : str := text ["<div>"; "<a></a> <p  class=x >y  z</p >  </div>"]%string.
Definition fdocx := utf16_doc fdoc.
Lemma fdoc_ok : textdoc_ok fdocx.
Proof. apply C27_contract. exists (decode fdoc). vm_compute. auto. Qed.
Definition fwhole : str := text ["<div>"; "  <a></a>"; "  <p class=x>y z</p>"; "</div>"]%string.
Definition froots : list node := match parse demo_unicode fdoc false html5_void with Ok l => l | _ => [] end.
Example whole_case : format demo_unicode fdocx None two false =
  Ok [mkEdit (mkRange (mkPos 0 0) (mkPos 1 38)) fwhole].
Proof. vm_compute. reflexivity. Qed.
Example body_case : body fdoc fdoc.
Proof.
  exists []. split; auto. split; [apply white_nil|]. split.
  - apply (do_utf8 _ fdoc_ok).
  - intros c r H. vm_compute in H. inv H. reflexivity.
Qed.
Example froots_case : parse demo_unicode fdoc false html5_void = Ok froots /\ length (doc_nodes froots) = 3.
Proof. vm_compute. auto. Qed.
(** C54 and C56 on this document *)
Example ink_case : ink fdoc = ink fwhole.
Proof. vm_compute. reflexivity. Qed.
Example tidy_case : Forall (tidy fdoc) (doc_nodes froots) /\ only_elements fdoc 0 froots (length fdoc).
Proof.
  split; [|vm_compute; auto]. let l := eval vm_compute in (doc_nodes froots) in change (doc_nodes froots) with l.
  apply Forall_cons; [|apply Forall_cons; [|apply Forall_cons; [|apply Forall_nil]]].
  - exists (bs "div"). split; [vm_compute; reflexivity|]. cbn [n_ste n_ets]. split; vm_compute; reflexivity.
  - exists (bs "a"). split; [vm_compute; reflexivity|]. cbn [n_ste n_ets]. split; vm_compute; reflexivity.
  - exists (bs "p"). split; [vm_compute; reflexivity|]. cbn [n_ste n_ets]. split; vm_compute; reflexivity.
Qed.
(** C57: an element two levels down; too long for one line of 10 bytes *)
Example depth_case : exists r m, In r froots /\ at_depth r 1 m /\ n_tag m = Some (bs "p") /\
  fits two (one_line two 1 m (bs "p")) /\ ~ fits (with_wrap 10) (one_line (with_wrap 10) 1 m (bs "p")) /\
  one_line two 1 m (bs "p") = bs "  <p class=x>" /\
  many_lines (with_wrap 10) 1 m (bs "p") = text ["  <p"; "    class=x"; "  >"]%string.
Proof.
  exists (nth 0 froots (mkNode None 0 0 [] false None None [])), (nth 2 (doc_nodes froots) (mkNode None 0 0 [] false None None [])).
  split; [vm_compute; auto|]. split.
  - eapply AD_child with (c := nth 2 (doc_nodes froots) (mkNode None 0 0 [] false None None [])); [vm_compute; discriminate| |apply AD_here].
    vm_compute. auto.
  - vm_compute. repeat split; auto; try (intros H; repeat apply le_S_n in H; inversion H); lia.
Qed.
(** A selection: the paragraph *)
Definition prange := range_at fdocx 14 36.
Example range_case : format demo_unicode fdocx (Some prange) two false =
  Ok [mkEdit prange (bs "<p class=x>y z</p>")].
Proof. vm_compute. reflexivity. Qed.
Example range_from : start_from fdoc (offset_at fdocx (r_start prange)) 14 /\ end_from fdoc (offset_at fdocx (r_end prange)) 36 /\
  ~ in_open_tag (sub fdoc 0 14) /\ nth_error fdoc 13 <> Some LF.
Proof.
  split; [|split; [|split]].
  - exists 13. split; [vm_compute; lia|]. split.
    + intros i I J. change (offset_at fdocx (r_start prange)) with 14 in J. assert (i = 13) by lia. subst i. left. reflexivity.
    + split; [|vm_compute; reflexivity]. right. intros [H|H]; vm_compute in H; discriminate.
  - exists 38. repeat split; try (vm_compute; lia).
    + intros i I J. change (offset_at fdocx (r_end prange)) with 36 in I. assert (i = 36 \/ i = 37) as [-> | ->] by lia; left; reflexivity.
    + intros [H|H]; vm_compute in H; discriminate.
  - intros H. apply inside_tag_spec in H. vm_compute in H. discriminate.
  - vm_compute. discriminate.
Qed.

(** The formatter drops what is not in an element: text, comments, the doctype. *)
Theorem C46_outside_dropped_refuted :
  format_doc two (bs "<!DOCTYPE html>a<b></b>c<!-- x --><i></i>") = Ok (bs "<b></b><i></i>").
Proof. vm_compute. reflexivity. Qed.
(** It drops what is in an element without an end tag. *)
Theorem C46_unclosed_dropped_refuted : format_doc two (bs "<p>lost<b>too</b>") = Ok (bs "<p />").
Proof. vm_compute. reflexivity. Qed.
(** It changes white space where white space matters. *)
Theorem C46_pre_refuted : format_doc two (bs "<pre>a   b</pre>") = Ok (bs "<pre>a b</pre>").
Proof. vm_compute. reflexivity. Qed.
(** An element without a name *)
Theorem C55_nameless_refuted : format_doc two (bs "<>") = Panic PUnwrap.
Proof. vm_compute. reflexivity. Qed.
(** A selection from the start, and one on the first line *)
Theorem C55_from_start_refuted : format_range two (bs "<b></b>") 0 7 = Panic PUnderflow.
Proof. vm_compute. reflexivity. Qed.
Theorem C55_first_line_refuted : format_range two (bs "<b></b><i></i>") 7 14 = Panic PUnderflow.
Proof. vm_compute. reflexivity. Qed.
(** A size of 0 for a tab *)
Theorem C55_tab_size_refuted :
  format_range (mkFmt 0 true false (Some 120) None true (max_preserve_new_lines default_options) false)
    fdoc 14 36 = Panic PDivZero.
Proof. vm_compute. reflexivity. Qed.
(** The edit for a selection at the start of a line starts one line below. *)
Theorem C46_replaces_line_refuted :
  format demo_unicode (utf16_doc (text ["<div>"; "<i ></i>"; "</div>"]%string))
    (Some (mkRange (mkPos 1 0) (mkPos 1 8))) two false =
  Ok [mkEdit (mkRange (mkPos 2 0) (mkPos 1 8)) (bs "<i></i>")].
Proof. vm_compute. reflexivity. Qed.
(** Formatting twice is not the same as formatting once. *)
Theorem C46_twice_refuted :
  format_doc two (bs "<div><br></div>") = Ok (text ["<div>"; "  <br /></div>"]%string) /\
  format_doc two (text ["<div>"; "  <br /></div>"]%string) = Ok (text ["<div>"; "  <br />"; "</div>"]%string).
Proof. vm_compute. auto. Qed.
