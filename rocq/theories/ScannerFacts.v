(** * Facts about the scanner: a declarative description of one [scan] step. *)
From Verif Require Import Base Stream Scanner BaseFacts.
From Coq Require Import ZifyBool ZifyNat ZifyN.

Lemma token_eqb_eq a b : token_eqb a b = true <-> a = b.
Proof. unfold token_eqb. destruct (token_eq_dec a b); split; congruence. Qed.
Lemma token_eqb_neq a b : token_eqb a b = false <-> a <> b.
Proof. unfold token_eqb. destruct (token_eq_dec a b); split; congruence. Qed.

(** ** Regular expressions *)
Lemma search_some f s a b :
  search f s = Some (a, b) ->
  a <= length s /\ f (skipn a s) = Some (b - a) /\ a <= b /\
  (forall i, i < a -> f (skipn i s) = None).
Proof.
  revert a b; induction s as [|x s IH]; intros a b; cbn [search].
  - destruct (f []) as [n|] eqn:E; intros H; inv H. simpl. rewrite E, Nat.sub_0_r.
    repeat split; auto; lia.
  - destruct (f (x :: s)) as [n|] eqn:E.
    + intros H; inv H. simpl. rewrite E, Nat.sub_0_r. repeat split; auto; lia.
    + destruct (search f s) as [[a' b']|] eqn:F; intros H; inv H.
      destruct (IH _ _ eq_refl) as (H1 & H2 & H3 & H4). simpl.
      repeat split; auto; try lia.
      intros [|i] Hi; simpl; auto. apply H4. lia.
Qed.

Lemma search_none f s :
  search f s = None -> forall i, i <= length s -> f (skipn i s) = None.
Proof.
  induction s as [|x s IH]; cbn [search]; intros H i Hi.
  - destruct (f []) eqn:E; [discriminate|]. rewrite skipn_nil. auto.
  - destruct (f (x :: s)) eqn:E; [discriminate|].
    destruct (search f s) as [[? ?]|] eqn:F; [discriminate|].
    destruct i; simpl; auto. apply IH; auto. simpl in Hi; lia.
Qed.

Lemma script_tail_le r : script_tail r <= length r.
Proof.
  unfold script_tail. pose proof (char_run_le is_uspace r) as H.
  set (n := char_run is_uspace r) in *.
  destruct (is_prefix [47%N] (skipn n r)) eqn:E1.
  - apply is_prefix_skipn_length in E1; [|congruence]. simpl in E1.
    destruct (is_prefix [62%N] (skipn (n + 1) r)) eqn:E2; [|lia].
    apply is_prefix_skipn_length in E2; [|congruence]. simpl in E2. lia.
  - destruct (is_prefix [62%N] (skipn (n + 0) r)) eqn:E2; [|lia].
    apply is_prefix_skipn_length in E2; [|congruence]. simpl in E2. lia.
Qed.

(** The four kinds of match of REG_SCRIPT_COMMENT. *)
Lemma script_at_some s n :
  script_at s = Some n ->
  n <= length s /\
  ((is_prefix (bs "<!--") s = true /\ n = 4) \/
   (is_prefix (bs "-->") s = true /\ n = 3) \/
   (is_prefix (bs "</script") s = true /\ n = 8 + script_tail (skipn 8 s)) \/
   (is_prefix (bs "<script") s = true /\ n = 7 + script_tail (skipn 7 s))).
Proof.
  unfold script_at. intros H.
  destruct (is_prefix (bs "<!--") s) eqn:E1.
  { inv H. apply is_prefix_length in E1 as L. simpl in L. split; [lia|auto]. }
  destruct (is_prefix (bs "-->") s) eqn:E2.
  { inv H. apply is_prefix_length in E2 as L. simpl in L. split; [lia|auto]. }
  destruct (is_prefix (bs "</script") s) eqn:E3.
  { apply Some_inj in H. subst n. apply is_prefix_length in E3 as L. change (length (bs "</script")) with 8 in L.
    pose proof (script_tail_le (skipn 8 s)) as T. rewrite skipn_length in T.
    split; [lia|auto]. }
  destruct (is_prefix (bs "<script") s) eqn:E4; [|discriminate].
  apply Some_inj in H. subst n. apply is_prefix_length in E4 as L. change (length (bs "<script")) with 7 in L.
  pose proof (script_tail_le (skipn 7 s)) as T. rewrite skipn_length in T.
  split; [lia|tauto].
Qed.

Lemma script_at_none s :
  script_at s = None ->
  is_prefix (bs "<!--") s = false /\ is_prefix (bs "-->") s = false /\
  is_prefix (bs "</script") s = false /\ is_prefix (bs "<script") s = false.
Proof.
  unfold script_at. intros H.
  repeat match type of H with context [is_prefix ?x ?y] =>
    destruct (is_prefix x y); [discriminate|] end. auto.
Qed.

(** The element name regexp. *)
Lemma m_element_name_some U s a b :
  m_element_name U s = Some (a, b) ->
  a = 0 /\ 0 < b /\ b <= length s /\
  exists c w, decode1 s = Some (c, w) /\ name_start_char U c = true /\
              b = w + char_run (name_char U) (skipn w s).
Proof.
  unfold m_element_name. destruct (decode1 s) as [[c w]|] eqn:E; [|discriminate].
  destruct (name_start_char U c) eqn:F; [|discriminate]. intros H; inv H.
  assert (0 < w /\ w <= length s).
  { unfold decode1 in E.
    destruct s as [|b0 r0]; [discriminate|]. destruct (b0 <? 128)%N; [inv E; simpl; lia|].
    destruct r0 as [|b1 r1]; [discriminate|]. destruct (b0 <? 224)%N; [inv E; simpl; lia|].
    destruct r1 as [|b2 r2]; [discriminate|]. destruct (b0 <? 240)%N; [inv E; simpl; lia|].
    destruct r2; [discriminate|]. inv E. simpl. lia. }
  pose proof (char_run_le (name_char U) (skipn w s)) as L. rewrite skipn_length in L.
  repeat split; try lia. eauto 6.
Qed.

Lemma m_value_some s a b :
  m_value s = Some (a, b) -> a = 0 /\ b = char_run val_char s /\ 0 < b /\ b <= length s.
Proof.
  unfold m_value. pose proof (char_run_le val_char s).
  destruct (char_run val_char s) eqn:E; intros Q; inv Q. auto with arith.
Qed.
Lemma m_value_none s : m_value s = None -> char_run val_char s = 0.
Proof. unfold m_value. destruct (char_run val_char s); congruence. Qed.
Lemma m_attr_name_some s a b :
  m_attr_name s = Some (a, b) -> a = 0 /\ b = char_run attr_char s /\ 0 < b /\ b <= length s.
Proof.
  unfold m_attr_name. pose proof (char_run_le attr_char s).
  destruct (char_run attr_char s) eqn:E; intros Q; inv Q. auto with arith.
Qed.
Lemma m_attr_name_none s : m_attr_name s = None -> char_run attr_char s = 0.
Proof. unfold m_attr_name. destruct (char_run attr_char s); congruence. Qed.

Lemma m_doctype_some s a b :
  m_doctype s = Some (a, b) -> a = 0 /\ b = 8 /\ 8 <= length s /\
  nth_error s 0 = Some BANG /\ map ascii_lower (sub s 1 8) = bs "doctype".
Proof.
  unfold m_doctype. destruct s as [|x r]; [discriminate|].
  destruct (N.eqb x 33) eqn:E; [|discriminate].
  destruct (beq _ _) eqn:F; simpl; intros H; inv H.
  apply beq_eq in F. apply N.eqb_eq in E. subst.
  assert (L : length (map ascii_lower (firstn 7 r)) = 7) by (rewrite F; auto).
  rewrite map_length, firstn_length in L. repeat split; try (simpl; lia); auto.
Qed.

(** Regexps on the stream *)
Lemma slice_rest t p r :
  slice t p (length t) = Ok r -> p <= length t /\ is_boundary t p = true /\ r = skipn p t.
Proof.
  intros H. apply slice_ok in H as (H1 & _ & H2 & _ & ->). repeat split; auto.
  unfold sub. apply firstn_all2. rewrite skipn_length. lia.
Qed.
Lemma slice_rest_ok t p :
  p <= length t -> is_boundary t p = true -> slice t p (length t) = Ok (skipn p t).
Proof.
  intros H1 H2. apply slice_ok. repeat split; auto using boundary_len.
  unfold sub. symmetry. apply firstn_all2. rewrite skipn_length. lia.
Qed.

Lemma adv_if_regexp_some m t p a b :
  adv_if_regexp m t p = Ok (Some (a, b)) ->
  p <= length t /\ is_boundary t p = true /\
  exists a' b', m (skipn p t) = Some (a', b') /\ a = p + a' /\ b = p + b'.
Proof.
  unfold adv_if_regexp. intros H. apply bind_ok in H as (r & H1 & H2).
  apply slice_rest in H1 as (L & B & ->).
  destruct (m (skipn p t)) as [[a' b']|] eqn:E; inv H2. eauto 8.
Qed.
Lemma adv_if_regexp_none m t p :
  adv_if_regexp m t p = Ok None ->
  p <= length t /\ is_boundary t p = true /\ m (skipn p t) = None.
Proof.
  unfold adv_if_regexp. intros H. apply bind_ok in H as (r & H1 & H2).
  apply slice_rest in H1 as (L & B & ->).
  destruct (m (skipn p t)) as [[a' b']|] eqn:E; inv H2. auto.
Qed.

(** ** Specification of script content

    [script_run t k p q]: reading the text from [p] in escape level [k]
    (1: plain script, 2: after "<!--", 3: after "<!--" and "<script"), the script
    content ends at [q]. *)
Inductive script_run (t : str) : nat -> nat -> nat -> Prop :=
| SR_end k : script_run t k (length t) (length t)
| SR_char k p q :
    p < length t ->
    is_prefix (bs "<!--") (skipn p t) = false -> is_prefix (bs "-->") (skipn p t) = false ->
    is_prefix (bs "</script") (skipn p t) = false -> is_prefix (bs "<script") (skipn p t) = false ->
    script_run t k (p + 1) q -> script_run t k p q
| SR_open_comment k p q :
    is_prefix (bs "<!--") (skipn p t) = true ->
    script_run t (if k =? 1 then 2 else k) (p + 4) q -> script_run t k p q
| SR_close_comment k p q :
    is_prefix (bs "-->") (skipn p t) = true ->
    script_run t 1 (p + 3) q -> script_run t k p q
| SR_open_script k p q :
    is_prefix (bs "<script") (skipn p t) = true ->
    script_run t (if k =? 2 then 3 else k) (p + 7) q -> script_run t k p q
| SR_close_nested p q :
    is_prefix (bs "</script") (skipn p t) = true ->
    script_run t 2 (p + 8) q -> script_run t 3 p q
| SR_close k p :
    k <> 3 -> is_prefix (bs "</script") (skipn p t) = true -> script_run t k p p.

Lemma script_run_le t k p q : script_run t k p q -> p <= q /\ q <= length t.
Proof.
  induction 1; try lia.
  apply is_prefix_skipn_length in H0; [simpl in H0; lia | discriminate].
Qed.

(** Bytes that start no marker. *)
Definition no_marker (t : str) (p : nat) : Prop :=
  p < length t /\
  is_prefix (bs "<!--") (skipn p t) = false /\ is_prefix (bs "-->") (skipn p t) = false /\
  is_prefix (bs "</script") (skipn p t) = false /\ is_prefix (bs "<script") (skipn p t) = false.

Lemma script_run_skip t k p p' q :
  p <= p' -> (forall i, p <= i -> i < p' -> no_marker t i) ->
  script_run t k p' q -> script_run t k p q.
Proof.
  intros H. remember (p' - p) as n. revert p H Heqn.
  induction n as [|n IH]; intros p H Hn Hm Hr.
  - replace p with p' by lia. auto.
  - destruct (Hm p ltac:(lia) ltac:(lia)) as (L & M1 & M2 & M3 & M4).
    apply SR_char; auto. apply IH; auto; try lia. intros i Hi1 Hi2. apply Hm; lia.
Qed.

(** A marker starts with '<' or '-'. *)
Lemma no_marker_byte t p b :
  nth_error t p = Some b -> b <> 60%N -> b <> 45%N -> no_marker t p.
Proof.
  intros H H1 H2. split; [eapply nth_error_lt; eauto|].
  rewrite (skipn_cons _ _ _ H).
  assert (F : forall x p s, x <> b -> is_prefix (x :: p) (b :: s) = false).
  { intros x p' s' Hx. simpl. replace (N.eqb x b) with false; auto.
    symmetry. apply N.eqb_neq. auto. }
  change (bs "<!--") with (60%N :: bs "!--"). change (bs "-->") with (45%N :: bs "->").
  change (bs "</script") with (60%N :: bs "/script"). change (bs "<script") with (60%N :: bs "script").
  rewrite !F by auto. auto.
Qed.

(** A run of characters none of which contains the byte [b < 128]. *)
Lemma char_run_bytes p s n :
  char_run p s = n -> (forall c, p c = true -> (c < 128)%N -> c <> 60%N /\ c <> 45%N) ->
  forall i b, i < n -> nth_error s i = Some b -> (b < 128)%N ->
  Utf8 s -> b <> 60%N /\ b <> 45%N.
Proof.
  intros <- Hp i b Hi Hb Hlt (cs & Hs & ->).
  rewrite char_run_encode in Hi by auto. revert i Hi Hb.
  induction cs as [|c cs IH]; intros i Hi Hb; [simpl in Hi; lia|].
  simpl in Hs. apply andb_true_iff in Hs as [Hc Hs]. simpl in Hi.
  destruct (p c) eqn:P; [|simpl in Hi; lia].
  rewrite !encode_cons in *. rewrite app_length in Hi.
  destruct (Nat.lt_ge_cases i (length (encode1 c))) as [L|L].
  - rewrite nth_error_app1 in Hb by auto.
    destruct i.
    + destruct (encode1 c) as [|x r] eqn:E; [discriminate|]. inv Hb.
      destruct (encode1_ascii _ _ _ Hc E Hlt) as [-> _]. auto.
    + exfalso. assert (is_cont b = true) by (eapply encode1_rest; eauto; lia).
      unfold is_cont in H. lia.
  - rewrite nth_error_app2 in Hb by auto. eapply IH; eauto. lia.
Qed.

(** ** Outcomes of one step *)
Section Outcome.
Variable U : unicode.
Variable t : str.
Variable emit cs : bool.
Notation len := (length t).
Notation at_ p b := (nth_error t p = Some b).

Definition reset (sc : scanner) : scanner :=
  set_last_attr None (set_last_type None (set_last_tag None sc)).

Definition norm (s : str) : str := if cs then s else lower U s.

(** [elem_name p e]: an element name starts at [p] and extends to [e]. *)
Definition elem_name (p e : nat) : Prop :=
  p < e /\ e <= len /\ is_boundary t p = true /\ m_element_name U (skipn p t) = Some (0, e - p).
Definition attr_name (p e : nat) : Prop :=
  p < e /\ e <= len /\ is_boundary t p = true /\ char_run attr_char (skipn p t) = e - p.
(** Unquoted value, with the quote the code appends when one follows. *)
Definition plain_value (p e : nat) : Prop :=
  p < e /\ e <= len /\ is_boundary t p = true /\
  exists n, 0 < n /\ char_run val_char (skipn p t) = n /\
    ((e = p + n + 1 /\ (at_ (p + n) SQUOTE \/ at_ (p + n) DQUOTE)) \/
     (e = p + n /\ ~ at_ e SQUOTE /\ ~ at_ e DQUOTE)).
Definition quoted_value (p e : nat) : Prop :=
  exists q, (q = SQUOTE \/ q = DQUOTE) /\ at_ p q /\ p < e /\ e <= len /\
    (forall i, p + 1 <= i -> i < e - 1 -> nth_error t i <> Some q) /\
    ((at_ (e - 1) q /\ p + 1 < e) \/ (e = len /\ (e - 1 <= p \/ nth_error t (e - 1) <> Some q))).

(** How the scanner gets into the code of state WithinTag. *)
Inductive enter_tag (sc : scanner) : scanner -> Prop :=
| ET_tag : st sc = WithinTag -> enter_tag sc sc
| ET_open : st sc = AfterOpeningStartTag -> at_ (pos sc) GT ->
    enter_tag sc (set_st WithinTag (reset sc))
| ET_attr : st sc = AfterAttributeName -> skip_ws t (pos sc) = None ->
    nth_error t (pos sc) <> Some EQ ->
    enter_tag sc (set_st WithinTag sc)
| ET_value : st sc = BeforeAttributeValue -> skip_ws t (pos sc) = None ->
    is_boundary t (pos sc) = true ->
    char_run val_char (skipn (pos sc) t) = 0 ->
    nth_error t (pos sc) <> Some SQUOTE -> nth_error t (pos sc) <> Some DQUOTE ->
    enter_tag sc (set_space false (set_st WithinTag sc)).

(** State after the '>' of a start tag. *)
Definition after_close (sc : scanner) : sstate :=
  if opt_beq (last_tag sc) (bs "script") then
    match last_type sc with Some _ => WithinContent | None => WithinScriptContent end
  else if opt_beq (last_tag sc) (bs "style") then WithinStyleContent
  else WithinContent.

(** Looking for an attribute name in vain clears the last attribute name. *)
Definition no_attr (sc : scanner) : scanner :=
  if has_space sc
  then (if peek_is t (pos sc) EQ then set_space false (set_last_attr None sc)
        else set_last_attr None sc)
  else sc.

Inductive tag_outcome (sc : scanner) : scanner -> Prop :=
| TO_ws e : skip_ws t (pos sc) = Some e ->
    tag_outcome sc (finish (set_space true sc) (pos sc) Whitespace None e (st sc))
| TO_attr e : has_space sc = true -> skip_ws t (pos sc) = None -> attr_name (pos sc) e ->
    tag_outcome sc (finish (set_space false (set_last_attr (Some (norm (sub t (pos sc) e))) sc))
                           (pos sc) AttributeName None e AfterAttributeName)
| TO_self_close : is_prefix (bs "/>") (skipn (pos sc) t) = true ->
    tag_outcome sc (finish (no_attr sc) (pos sc) StartTagSelfClose None (pos sc + 2) WithinContent)
| TO_close : at_ (pos sc) GT ->
    tag_outcome sc (finish (no_attr sc) (pos sc) StartTagClose None (pos sc + 1) (after_close sc))
| TO_pseudo : emit = true -> at_ (pos sc) LT ->
    tag_outcome sc (finish (no_attr sc) (pos sc) StartTagClose (Some ErrClosingBracketMissing)
                           (pos sc) WithinContent)
| TO_unknown : (emit = true -> nth_error t (pos sc) <> Some LT) -> nth_error t (pos sc) <> Some GT ->
    is_prefix (bs "/>") (skipn (pos sc) t) = false -> skip_ws t (pos sc) = None ->
    (has_space sc = true -> is_boundary t (pos sc) = true /\ char_run attr_char (skipn (pos sc) t) = 0) ->
    tag_outcome sc (finish (no_attr sc) (pos sc) Unknown (Some ErrUnexpectedChar) (pos sc + 1) (st sc)).

(** When the scanner behaves as in plain content: directly, or because the
    script/style content is empty. *)
Definition content_like (sc : scanner) : Prop :=
  st sc = WithinContent \/
  (st sc = WithinScriptContent /\ script_run t 1 (pos sc) (pos sc)) \/
  (st sc = WithinStyleContent /\ is_prefix (bs "</style") (skipn (pos sc) t) = true).

Definition new_type (sc : scanner) (v : str) : option str :=
  if opt_beq (last_attr sc) (bs "type") then nonempty v else last_type sc.

Inductive outcome (sc : scanner) : scanner -> Prop :=
| O_eos : len <= pos sc -> outcome sc (finish sc (pos sc) EOS None (pos sc) (st sc))
| O_end_comment : st sc = WithinComment -> is_prefix (bs "-->") (skipn (pos sc) t) = true ->
    outcome sc (finish sc (pos sc) EndCommentTag None (pos sc + 3) WithinContent)
| O_comment e : pos sc < len -> st sc = WithinComment -> is_prefix (bs "-->") (skipn (pos sc) t) = false ->
    first_str t (pos sc) (bs "-->") e ->
    outcome sc (finish sc (pos sc) Comment None e WithinComment)
| O_end_doctype : st sc = WithinDoctype -> at_ (pos sc) GT ->
    outcome sc (finish sc (pos sc) EndDoctypeTag None (pos sc + 1) WithinContent)
| O_doctype e : pos sc < len -> st sc = WithinDoctype -> nth_error t (pos sc) <> Some GT ->
    first_byte t (pos sc) GT e ->
    outcome sc (finish sc (pos sc) Doctype None e WithinDoctype)
| O_start_comment : content_like sc -> is_prefix (bs "<!--") (skipn (pos sc) t) = true ->
    outcome sc (finish sc (pos sc) StartCommentTag None (pos sc + 4) WithinComment)
| O_start_doctype : content_like sc -> at_ (pos sc) LT -> is_boundary t (pos sc + 1) = true ->
    m_doctype (skipn (pos sc + 1) t) = Some (0, 8) ->
    outcome sc (finish sc (pos sc) StartDoctypeTag None (pos sc + 9) WithinDoctype)
| O_end_tag_open : content_like sc -> at_ (pos sc) LT -> at_ (pos sc + 1) SLASH ->
    outcome sc (finish sc (pos sc) EndTagOpen None (pos sc + 2) AfterOpeningEndTag)
| O_start_tag_open : content_like sc -> at_ (pos sc) LT ->
    is_prefix (bs "<!--") (skipn (pos sc) t) = false ->
    nth_error t (pos sc + 1) <> Some SLASH ->
    m_doctype (skipn (pos sc + 1) t) = None ->
    outcome sc (finish sc (pos sc) StartTagOpen None (pos sc + 1) AfterOpeningStartTag)
| O_content e : st sc = WithinContent -> pos sc < len -> nth_error t (pos sc) <> Some LT ->
    first_byte t (pos sc) LT e ->
    outcome sc (finish sc (pos sc) Content None e WithinContent)
| O_end_tag e : st sc = AfterOpeningEndTag -> elem_name (pos sc) e ->
    outcome sc (finish sc (pos sc) EndTag None e WithinEndTag)
| O_end_tag_ws e : st sc = AfterOpeningEndTag -> skip_ws t (pos sc) = Some e ->
    outcome sc (finish sc (pos sc) Whitespace (Some ErrNameMustFollow) e AfterOpeningEndTag)
| O_end_tag_unknown e : st sc = AfterOpeningEndTag -> first_byte t (pos sc) GT e -> pos sc < e ->
    skip_ws t (pos sc) = None -> m_element_name U (skipn (pos sc) t) = None ->
    outcome sc (finish sc (pos sc) Unknown (Some ErrEndTagNameExpected) e WithinEndTag)
| O_end_tag_ws2 e : st sc = WithinEndTag -> skip_ws t (pos sc) = Some e ->
    outcome sc (finish sc (pos sc) Whitespace None e WithinEndTag)
| O_end_tag_close : st sc = WithinEndTag \/ st sc = AfterOpeningEndTag -> at_ (pos sc) GT ->
    outcome sc (finish sc (pos sc) EndTagClose None (pos sc + 1) WithinContent)
| O_end_tag_pseudo : st sc = WithinEndTag -> emit = true -> at_ (pos sc) LT ->
    outcome sc (finish sc (pos sc) EndTagClose (Some ErrClosingBracketMissing) (pos sc) WithinContent)
| O_end_tag_unexpected : pos sc < len -> st sc = WithinEndTag -> nth_error t (pos sc) <> Some GT ->
    skip_ws t (pos sc) = None -> (emit = true -> nth_error t (pos sc) <> Some LT) ->
    outcome sc (finish sc (pos sc) Unknown (Some ErrClosingBracketExpected) (pos sc + 1) WithinContent)
| O_start_tag e : st sc = AfterOpeningStartTag -> elem_name (pos sc) e ->
    outcome sc (finish (set_space false (set_last_tag (Some (norm (sub t (pos sc) e))) (reset sc)))
                       (pos sc) StartTag None e WithinTag)
| O_start_tag_ws e : st sc = AfterOpeningStartTag -> skip_ws t (pos sc) = Some e ->
    outcome sc (finish (reset sc) (pos sc) Whitespace (Some ErrNameMustFollow) e AfterOpeningStartTag)
| O_start_tag_unknown e : st sc = AfterOpeningStartTag -> first_byte t (pos sc) GT e -> pos sc < e ->
    skip_ws t (pos sc) = None -> m_element_name U (skipn (pos sc) t) = None ->
    outcome sc (finish (reset sc) (pos sc) Unknown (Some ErrStartTagNameExpected) e WithinTag)
| O_in_tag sc1 sc' : pos sc < len -> enter_tag sc sc1 -> tag_outcome sc1 sc' -> outcome sc sc'
| O_attr_ws e : st sc = AfterAttributeName -> skip_ws t (pos sc) = Some e ->
    outcome sc (finish (set_space true sc) (pos sc) Whitespace None e AfterAttributeName)
| O_assign : st sc = AfterAttributeName -> at_ (pos sc) EQ ->
    outcome sc (finish sc (pos sc) DelimiterAssign None (pos sc + 1) BeforeAttributeValue)
| O_value_ws e : st sc = BeforeAttributeValue -> skip_ws t (pos sc) = Some e ->
    outcome sc (finish (set_space true sc) (pos sc) Whitespace None e WithinTag)
| O_value_plain e : st sc = BeforeAttributeValue -> skip_ws t (pos sc) = None -> plain_value (pos sc) e ->
    outcome sc (finish (set_space false (set_last_type (new_type sc (sub t (pos sc) e)) sc))
                       (pos sc) AttributeValue None e WithinTag)
| O_value_quoted e : st sc = BeforeAttributeValue -> quoted_value (pos sc) e ->
    (opt_beq (last_attr sc) (bs "type") = true ->
     is_boundary t (pos sc + 1) = true /\ is_boundary t (e - 1) = true) ->
    outcome sc (finish (set_space false (set_last_type (new_type sc
                          (if e - 1 <? pos sc + 1 then sub t (e - 1) (pos sc + 1)
                           else sub t (pos sc + 1) (e - 1))) sc))
                       (pos sc) AttributeValue None e WithinTag)
| O_script e s : st sc = WithinScriptContent -> pos sc < e -> script_run t 1 (pos sc) e ->
    s = WithinContent \/ (s = WithinScriptContent /\ e = len) ->
    outcome sc (finish sc (pos sc) Script None e s)
| O_style e : st sc = WithinStyleContent -> pos sc < e -> first_str t (pos sc) (bs "</style") e ->
    outcome sc (finish sc (pos sc) Styles None e WithinContent).
End Outcome.

(** ** The script loop meets its specification *)
Lemma sub_prefix t p s e :
  is_prefix p (skipn s t) = true -> s + length p <= e ->
  sub t s e = p ++ sub t (s + length p) e.
Proof.
  intros H L. rewrite (sub_split t s (s + length p) e) by lia.
  rewrite (is_prefix_sub _ _ _ H). auto.
Qed.

Lemma Bd_skipn_utf8 t i : Bd t i -> Utf8 (skipn i t).
Proof. intros H. destruct (Bd_skipn _ _ H) as (cs & H1 & H2). exists cs. auto. Qed.

Lemma char_run_utf8 p s : Utf8 s -> exists k, Bd s k /\ k = char_run p s.
Proof.
  intros H. exists (char_run p s). split; auto.
  apply (Bd_char_run s 0 p). apply Bd_0. auto.
Qed.

Lemma is_prefix1 b s : is_prefix [b] s = true <-> nth_error s 0 = Some b.
Proof.
  destruct s as [|x s]; simpl; [split; discriminate|].
  rewrite andb_true_r, N.eqb_eq. split; congruence.
Qed.

(** No marker begins inside what follows the word "script". *)
Lemma script_tail_no_marker t p i :
  Bd t p -> p <= i -> i < p + script_tail (skipn p t) -> no_marker t i.
Proof.
  intros HB H1 H2. unfold script_tail in H2.
  set (s := skipn p t) in *. set (n := char_run is_uspace s) in *.
  assert (E : forall j, nth_error s j = nth_error t (p + j)) by (intros; apply skipn_nth_error).
  destruct (Nat.lt_ge_cases i (p + n)) as [L|L].
  - destruct (nth_error t i) as [b|] eqn:Eb.
    2:{ apply nth_error_None in Eb. pose proof (char_run_le is_uspace s) as Q. fold n in Q.
        unfold s in Q. rewrite skipn_length in Q. lia. }
    destruct (N.lt_ge_cases b 128) as [Lb|Lb].
    + assert (b <> 60%N /\ b <> 45%N).
      { apply (char_run_bytes is_uspace s n eq_refl) with (i := i - p).
        - intros c Hc _. unfold is_uspace in Hc. lia.
        - lia.
        - rewrite E. replace (p + (i - p)) with i by lia. auto.
        - auto.
        - apply Bd_skipn_utf8. auto. }
      eapply no_marker_byte; eauto; tauto.
    + eapply no_marker_byte; eauto; lia.
  - destruct (is_prefix [47%N] (skipn n s)) eqn:P1;
      apply is_prefix1 in P1 || clear P1.
    + rewrite skipn_nth_error, E in P1. replace (p + (n + 0)) with (p + n) in P1 by lia.
      destruct (Nat.eq_dec i (p + n)) as [->|Hi].
      { eapply no_marker_byte; eauto; discriminate. }
      destruct (is_prefix [62%N] (skipn (n + 1) s)) eqn:P2; [|lia].
      apply is_prefix1 in P2. rewrite skipn_nth_error, E in P2.
      replace (p + (n + 1 + 0)) with i in P2 by lia.
      eapply no_marker_byte; eauto; discriminate.
    + destruct (is_prefix [62%N] (skipn (n + 0) s)) eqn:P2; [|lia].
      apply is_prefix1 in P2. rewrite skipn_nth_error, E in P2.
      replace (p + (n + 0 + 0)) with i in P2 by lia.
      eapply no_marker_byte; eauto; discriminate.
Qed.

(** Boundaries after literal ASCII text. *)
Lemma Bd_prefix t p x :
  Utf8 t -> is_prefix x (skipn p t) = true -> x <> [] -> all_ascii x = true -> Bd t (p + length x).
Proof.
  intros HU H Hx Ha.
  destruct (exists_last Hx) as (y & b & ->). rewrite app_length. simpl.
  assert (Hb : nth_error t (p + length y) = Some b).
  { rewrite <- skipn_nth_error. apply is_prefix_spec in H as (r & ->).
    rewrite <- app_assoc. rewrite nth_error_app2 by lia. rewrite Nat.sub_diag. auto. }
  unfold all_ascii in Ha. rewrite forallb_app in Ha. apply andb_true_iff in Ha as [_ Ha].
  simpl in Ha. rewrite andb_true_r in Ha.
  replace (p + (length y + 1)) with (p + length y + 1) by lia.
  apply Bd_after_ascii with (b := b); auto. lia.
Qed.

Lemma Bd_at_prefix t p x :
  Utf8 t -> is_prefix x (skipn p t) = true -> x <> [] -> all_ascii x = true -> Bd t p.
Proof.
  intros HU H Hx Ha. destruct x as [|b x]; [congruence|].
  apply is_prefix_spec in H as (r & H). simpl in Ha. apply andb_true_iff in Ha as [Ha _].
  apply Bd_at_ascii with (b := b); auto; [|lia].
  rewrite <- (Nat.add_0_r p), <- skipn_nth_error, H. auto.
Qed.

Lemma Bd_script_tail t p : Bd t p -> Bd t (p + script_tail (skipn p t)).
Proof.
  intros HB. pose proof (Bd_utf8 _ _ HB) as HU. unfold script_tail.
  set (n := char_run is_uspace (skipn p t)).
  assert (B0 : Bd t (p + n)) by (apply Bd_char_run; auto).
  destruct (is_prefix [47%N] (skipn n (skipn p t))) eqn:P1.
  - rewrite skipn_skipn in P1. replace (n + p) with (p + n) in P1 by lia.
    assert (B1 : Bd t (p + n + 1)) by (apply (Bd_prefix t (p + n) [47%N]); auto; discriminate).
    destruct (is_prefix [62%N] (skipn (n + 1) (skipn p t))) eqn:P2.
    + rewrite skipn_skipn in P2. replace (n + 1 + p) with (p + n + 1) in P2 by lia.
      replace (p + (n + 1 + 1)) with (p + n + 1 + 1) by lia.
      apply (Bd_prefix t (p + n + 1) [62%N]); auto; discriminate.
    + replace (p + (n + 1 + 0)) with (p + n + 1) by lia. auto.
  - destruct (is_prefix [62%N] (skipn (n + 0) (skipn p t))) eqn:P2.
    + rewrite skipn_skipn in P2. replace (n + 0 + p) with (p + n) in P2 by lia.
      replace (p + (n + 0 + 1)) with (p + n + 1) by lia.
      apply (Bd_prefix t (p + n) [62%N]); auto; discriminate.
    + replace (p + (n + 0 + 0)) with (p + n) by lia. auto.
Qed.

Lemma slice_close_script x : slice (bs "</script" ++ x) 1 2 = Ok [47%N].
Proof. reflexivity. Qed.
Lemma slice_open_script x : slice (bs "<script" ++ x) 1 2 = Ok [115%N].
Proof. reflexivity. Qed.

(** Total correctness of the loop: with enough fuel and from a character
    boundary it neither panics nor runs out of fuel, and it computes the end of
    the script content. *)
Lemma script_loop_spec t : Utf8 t -> forall fuel ss p,
  Bd t p -> length t - p <= fuel ->
  exists fin q, script_loop t fuel ss p = Ok (fin, q) /\ script_run t ss p q /\
                (fin = true -> q = length t).
Proof.
  intros HU. induction fuel as [|fuel IH]; intros ss p HB Hf.
  - pose proof (Bd_le _ _ HB). replace p with (length t) by lia.
    exists false, (length t). cbn [script_loop]. unfold eos.
    rewrite Nat.leb_refl. repeat split; auto using script_run; try discriminate.
  - cbn [script_loop]. unfold eos. destruct (length t <=? p) eqn:E.
    { pose proof (Bd_le _ _ HB). replace p with (length t) in * by lia.
      exists false, (length t). repeat split; auto using script_run; try discriminate. }
    pose proof (Bd_boundary _ _ HB) as Hbd. pose proof (Bd_le _ _ HB) as Hle.
    unfold adv_if_regexp. rewrite slice_rest_ok by auto. cbn [bind].
    destruct (m_script (skipn p t)) as [[a b]|] eqn:M.
    2:{ exists true, (length t). repeat split; auto.
        apply script_run_skip with (p' := length t); auto using script_run.
        intros i H1 H2. unfold m_script in M.
        pose proof (search_none _ _ M (i - p)) as Q. rewrite skipn_length in Q.
        specialize (Q ltac:(lia)). rewrite skipn_skipn in Q. replace (i - p + p) with i in Q by lia.
        apply script_at_none in Q. split; tauto. }
    unfold m_script in M. apply search_some in M as (M1 & M2 & M3 & M4).
    rewrite skipn_length in M1. rewrite skipn_skipn in M2. replace (a + p) with (p + a) in M2 by lia.
    set (s := p + a) in *. set (e := p + b) in *.
    assert (Hskip : forall k q, script_run t k s q -> script_run t k p q).
    { intros k q. apply script_run_skip; [unfold s; lia|]. intros i H1 H2.
      pose proof (M4 (i - p) ltac:(unfold s in *; lia)) as Q. rewrite skipn_skipn in Q.
      replace (i - p + p) with i in Q by lia. apply script_at_none in Q. split; [unfold s in *; lia|tauto]. }
    apply script_at_some in M2 as (L & M2). rewrite skipn_length in L.
    assert (He : b - a = e - s) by (unfold e, s; lia).
    destruct M2 as [[P N]|[[P N]|[[P N]|[P N]]]].
    + assert (e = s + 4) as -> by lia.
      assert (Q : sub t s (s + 4) = bs "<!--") by (apply (is_prefix_sub (bs "<!--")); auto).
      rewrite Q, beq_refl.
      destruct (IH (if ss =? 1 then 2 else ss) (s + 4)) as (fin & q & R1 & R2 & R3).
      { apply (Bd_prefix t s (bs "<!--")); auto; discriminate. } { unfold s. lia. }
      exists fin, q. repeat split; auto. apply Hskip. apply SR_open_comment; auto.
    + assert (e = s + 3) as -> by lia.
      assert (Q : sub t s (s + 3) = bs "-->") by (apply (is_prefix_sub (bs "-->")); auto).
      rewrite Q. change (beq (bs "-->") (bs "<!--")) with false. cbn iota. rewrite beq_refl.
      destruct (IH 1 (s + 3)) as (fin & q & R1 & R2 & R3).
      { apply (Bd_prefix t s (bs "-->")); auto; discriminate. } { unfold s. lia. }
      exists fin, q. repeat split; auto. apply Hskip. apply SR_close_comment; auto.
    + assert (B8 : Bd t (s + 8)) by (apply (Bd_prefix t s (bs "</script")); auto; discriminate).
      rewrite skipn_skipn in N. replace (8 + s) with (s + 8) in N by lia.
      assert (Ee : e = s + 8 + script_tail (skipn (s + 8) t)) by lia.
      assert (Q : sub t s e = bs "</script" ++ sub t (s + 8) e)
        by (apply (sub_prefix t (bs "</script")); auto; change (length (bs "</script")) with 8; lia).
      rewrite Q.
      change (beq (bs "</script" ++ sub t (s + 8) e) (bs "<!--")) with false.
      change (beq (bs "</script" ++ sub t (s + 8) e) (bs "-->")) with false. cbn iota.
      rewrite slice_close_script. cbn [bind].
      change (negb (beq [47%N] [SLASH])) with false. cbn iota.
      destruct (ss =? 3) eqn:K.
      * apply Nat.eqb_eq in K. subst ss.
        destruct (IH 2 e) as (fin & q & R1 & R2 & R3).
        { rewrite Ee. apply Bd_script_tail; auto. } { unfold s in *. lia. }
        exists fin, q. repeat split; auto. apply Hskip. apply SR_close_nested; auto.
        apply script_run_skip with (p' := e); auto; [lia|].
        intros i H1 H2. apply script_tail_no_marker with (p := s + 8); auto. lia.
      * exists false, s. rewrite <- Q. rewrite sub_length by (unfold s in *; lia).
        replace (e - (e - s)) with s by lia. repeat split; auto; [|discriminate].
        apply Hskip. apply SR_close; auto. lia.
    + assert (B7 : Bd t (s + 7)) by (apply (Bd_prefix t s (bs "<script")); auto; discriminate).
      rewrite skipn_skipn in N. replace (7 + s) with (s + 7) in N by lia.
      assert (Ee : e = s + 7 + script_tail (skipn (s + 7) t)) by lia.
      assert (Q : sub t s e = bs "<script" ++ sub t (s + 7) e)
        by (apply (sub_prefix t (bs "<script")); auto; change (length (bs "<script")) with 7; lia).
      rewrite Q.
      change (beq (bs "<script" ++ sub t (s + 7) e) (bs "<!--")) with false.
      change (beq (bs "<script" ++ sub t (s + 7) e) (bs "-->")) with false. cbn iota.
      rewrite slice_open_script. cbn [bind].
      change (negb (beq [115%N] [SLASH])) with true. cbn iota.
      destruct (IH (if ss =? 2 then 3 else ss) e) as (fin & q & R1 & R2 & R3).
      { rewrite Ee. apply Bd_script_tail; auto. } { unfold s in *. lia. }
      exists fin, q. repeat split; auto. apply Hskip. apply SR_open_script; auto.
      apply script_run_skip with (p' := e); auto; [lia|].
      intros i H1 H2. apply script_tail_no_marker with (p := s + 7); auto. lia.
Qed.

(** The specification is deterministic. *)
Lemma script_run_det t k p q q' : script_run t k p q -> script_run t k p q' -> q = q'.
Proof.
  assert (X1 : forall s, is_prefix (bs "<!--") s = true -> is_prefix (bs "-->") s = true -> False).
  { intros s A B. apply is_prefix_spec in A as (r & ->). discriminate B. }
  assert (X2 : forall s, is_prefix (bs "<!--") s = true -> is_prefix (bs "</script") s = true -> False).
  { intros s A B. apply is_prefix_spec in A as (r & ->). discriminate B. }
  assert (X3 : forall s, is_prefix (bs "<!--") s = true -> is_prefix (bs "<script") s = true -> False).
  { intros s A B. apply is_prefix_spec in A as (r & ->). discriminate B. }
  assert (X4 : forall s, is_prefix (bs "-->") s = true -> is_prefix (bs "</script") s = true -> False).
  { intros s A B. apply is_prefix_spec in A as (r & ->). discriminate B. }
  assert (X5 : forall s, is_prefix (bs "-->") s = true -> is_prefix (bs "<script") s = true -> False).
  { intros s A B. apply is_prefix_spec in A as (r & ->). discriminate B. }
  assert (X6 : forall s, is_prefix (bs "</script") s = true -> is_prefix (bs "<script") s = true -> False).
  { intros s A B. apply is_prefix_spec in A as (r & ->). discriminate B. }
  assert (X7 : forall x, x <> [] -> is_prefix x (skipn (length t) t) = true -> False).
  { intros x Hx H. rewrite skipn_all in H. rewrite is_prefix_nil_false in H; auto. discriminate. }
  intros H. revert q'. induction H; intros q' H'; inv H'; auto;
    try (exfalso; eauto; fail); try congruence; try lia;
    try (exfalso; eapply X7; [|eassumption]; discriminate).
Qed.

(** Every position has a script end. *)
Lemma script_run_total t n : forall k p, length t - p <= n -> p <= length t -> exists q, script_run t k p q.
Proof.
  induction n as [n IH] using lt_wf_ind; intros k p Hn Hp.
  destruct (Nat.eq_dec p (length t)) as [->|Hne]; [eauto using script_run|].
  assert (R : forall k p', p < p' -> p' <= length t -> exists q, script_run t k p' q).
  { intros k' p' H1 H2. apply (IH (length t - p')); lia. }
  assert (L : forall x, is_prefix x (skipn p t) = true -> x <> [] -> p + length x <= length t).
  { intros x H Hx. apply is_prefix_skipn_length in H; auto. }
  destruct (is_prefix (bs "<!--") (skipn p t)) eqn:E1.
  { pose proof (L _ E1 ltac:(discriminate)) as Q. cbn [length bs] in Q.
    destruct (R (if k =? 1 then 2 else k) (p + 4)) as (q & H); try lia.
    exists q. apply SR_open_comment; auto. }
  destruct (is_prefix (bs "-->") (skipn p t)) eqn:E2.
  { pose proof (L _ E2 ltac:(discriminate)) as Q. cbn [length bs] in Q.
    destruct (R 1 (p + 3)) as (q & H); try lia. exists q. apply SR_close_comment; auto. }
  destruct (is_prefix (bs "</script") (skipn p t)) eqn:E3.
  { pose proof (L _ E3 ltac:(discriminate)) as Q. cbn [length bs] in Q.
    destruct (Nat.eq_dec k 3) as [->|Hk].
    - destruct (R 2 (p + 8)) as (q & H); try lia. exists q. apply SR_close_nested; auto.
    - exists p. apply SR_close; auto. }
  destruct (is_prefix (bs "<script") (skipn p t)) eqn:E4.
  { pose proof (L _ E4 ltac:(discriminate)) as Q. cbn [length bs] in Q.
    destruct (R (if k =? 2 then 3 else k) (p + 7)) as (q & H); try lia.
    exists q. apply SR_open_script; auto. }
  destruct (R k (p + 1)) as (q & H); try lia. exists q. apply SR_char; auto. lia.
Qed.
