(** * The text of every kind of token. *)
From Verif Require Import Base Stream Scanner BaseFacts ScannerFacts ScanStep ScanProps ScanPanic.
From Coq Require Import ZifyBool ZifyNat ZifyN.

(** ** Specification *)
(** Non-empty text all of whose characters satisfy [p] and which is not followed
    by another such character. *)
Definition chars_text (p : N -> bool) (t : str) (a b : nat) : Prop :=
  exists l, l <> [] /\ forallb scalar l = true /\ sub t a b = encode l /\ forallb p l = true /\
    (forall c, char_at t b c -> p c = false).

(** An element name: a start character, then name characters, as many as there are. *)
Definition name_text (U : unicode) (t : str) (a b : nat) : Prop :=
  exists c l, forallb scalar (c :: l) = true /\ sub t a b = encode (c :: l) /\
    name_start_char U c = true /\ forallb (name_char U) l = true /\
    (forall c, char_at t b c -> name_char U c = false).

Definition no_byte (b : N) (s : str) : Prop := ~ In b s.

(** An attribute value: unquoted (with the quote that may directly follow it),
    quoted, or quoted and cut off by the end of the text. *)
Inductive value_text (t : str) (a b : nat) : Prop :=
| VT_plain m : a < m -> chars_text val_char t a m ->
    (b = m /\ nth_error t m <> Some SQUOTE /\ nth_error t m <> Some DQUOTE) \/
    (b = m + 1 /\ (nth_error t m = Some SQUOTE \/ nth_error t m = Some DQUOTE)) -> value_text t a b
| VT_quoted q body : q = SQUOTE \/ q = DQUOTE -> sub t a b = q :: body ++ [q] -> no_byte q body ->
    value_text t a b
| VT_cut q body : q = SQUOTE \/ q = DQUOTE -> sub t a b = q :: body -> no_byte q body -> b = length t ->
    value_text t a b.

Definition token_shape (U : unicode) (t : str) (emit : bool) (k : token) : Prop :=
  let a := tk_off k in let b := tk_end k in let s := sub t a b in
  match tk_type k with
  | StartCommentTag => s = bs "<!--"
  | Comment => a < b /\ first_str t a (bs "-->") b
  | EndCommentTag => s = bs "-->"
  | StartTagOpen => s = bs "<"
  | EndTagOpen => s = bs "</"
  | StartTagSelfClose => s = bs "/>"
  | DelimiterAssign => s = bs "="
  | EndDoctypeTag => s = bs ">"
  | StartTagClose | EndTagClose =>
      s = bs ">" \/ (emit = true /\ a = b /\ nth_error t a = Some LT)
  | StartTag | EndTag => name_text U t a b
  | AttributeName => chars_text attr_char t a b
  | AttributeValue => value_text t a b
  | StartDoctypeTag => map ascii_lower s = bs "<!doctype"
  | Doctype => a < b /\ no_byte GT s /\ (b = length t \/ nth_error t b = Some GT)
  | Content => a < b /\ no_byte LT s /\ (b = length t \/ nth_error t b = Some LT)
  | Whitespace => s <> [] /\ forallb is_ws s = true /\ (forall x, nth_error t b = Some x -> is_ws x = false)
  | Script => a < b /\ script_run t 1 a b
  | Styles => a < b /\ first_str t a (bs "</style") b
  | Unknown => a < b
  | EOS => a = b
  end.

Section P.
Variable U : unicode.
Variable t : str.
Variable emit cs : bool.
Hypothesis HU : Utf8 t.
Notation scan := (scan U t emit cs).
Notation len := (length t).

Lemma bd_sub a b l r : Bd t a -> forallb scalar (l ++ r) = true -> skipn a t = encode (l ++ r) ->
  b = a + length (encode l) -> sub t a b = encode l.
Proof.
  intros B S E ->. unfold sub. rewrite E, encode_app.
  replace (a + length (encode l) - a) with (length (encode l)) by lia.
  rewrite firstn_app, Nat.sub_diag, firstn_all. simpl. apply app_nil_r.
Qed.

Lemma char_at_det i c c' : char_at t i c -> char_at t i c' -> c = c'.
Proof.
  intros H1 H2. apply char_at_skipn in H1 as (S1 & r1 & R1 & E1).
  apply char_at_skipn in H2 as (S2 & r2 & R2 & E2).
  rewrite E1 in E2. apply (f_equal decode1) in E2. rewrite !decode1_encode in E2 by auto. congruence.
Qed.

Lemma char_run_text p a b : Bd t a -> a < b -> char_run p (skipn a t) = b - a -> chars_text p t a b.
Proof.
  intros B L H. destruct (Bd_skipn _ _ B) as (l & Sl & E). rewrite E, char_run_encode in H by auto.
  destruct (take_while_split p l) as (r & R & M). set (w := take_while p l) in *.
  assert (b = a + length (encode w)) by lia.
  exists w. split; [intros ->; simpl in *; lia|].
  rewrite R in Sl, E. pose proof Sl as Sl'. rewrite forallb_app in Sl'. apply andb_true_iff in Sl' as [S1 S2].
  repeat split; auto; try (eapply bd_sub; eauto); try (apply take_while_forall).
  intros c C. destruct r as [|c' r'].
  - apply char_at_skipn in C as (Sc & x & Sx & Ex).
    assert (length t = a + length (encode w)).
    { pose proof (f_equal (@length N) E) as Q. rewrite skipn_length, app_nil_r in Q.
      pose proof (Bd_le _ _ B). lia. }
    rewrite skipn_all2 in Ex by lia. rewrite encode_cons in Ex. pose proof (encode1_nonempty _ Sc).
    destruct (encode1 c); [simpl in *; lia|discriminate].
  - apply (M c r'). f_equal. apply char_at_skipn in C as (Sc & x & Sx & Ex).
    assert (Q : skipn b t = encode (c' :: r')).
    { replace b with (length (encode w) + a) by lia. rewrite <- skipn_skipn, E, encode_app, skipn_app, Nat.sub_diag, skipn_all. auto. }
    rewrite Q in Ex. simpl in S2. apply andb_true_iff in S2 as [S2 S3].
    apply (f_equal decode1) in Ex. rewrite !decode1_encode in Ex by auto. congruence.
Qed.

Lemma elem_name_text a b : elem_name U t a b -> name_text U t a b.
Proof.
  intros H. pose proof (bd_elem U t HU _ _ H) as [B _]. destruct H as (H1 & H2 & H3 & H4).
  apply m_element_name_some in H4 as (_ & _ & _ & c & w & D & F & E).
  destruct (Bd_skipn _ _ B) as (l & Sl & El).
  destruct l as [|c' l]; [rewrite El in D; discriminate|].
  assert (Sc : scalar c' = true /\ forallb scalar l = true) by (simpl in Sl; apply andb_true_iff in Sl; tauto).
  destruct Sc as [Sc Sl'].
  rewrite El, decode1_encode in D by auto. inv D. set (w := length (encode1 c)) in *.
  assert (Bw : Bd t (a + w)).
  { unfold w. replace (encode1 c) with (encode [c]) by (simpl; apply app_nil_r).
    apply Bd_advance with (cs2 := l); auto. }
  rewrite skipn_skipn in E. replace (w + a) with (a + w) in E by lia.
  assert (Hw : sub t a (a + w) = encode1 c).
  { replace (encode1 c) with (encode [c]) by (simpl; apply app_nil_r).
    apply bd_sub with (r := l); auto. unfold w. simpl. rewrite app_nil_r. auto. }
  destruct (Nat.eq_dec (a + w) b) as [Eq|Ne].
  - exists c, []. simpl. rewrite Sc, F, app_nil_r, <- Eq. repeat split; auto.
    intros c' C'. assert (R : char_run (name_char U) (skipn (a + w) t) = 0) by lia.
    apply char_at_skipn in C' as (S' & r & Sr & Er). rewrite Er, encode_cons, char_run_encode1 in R by auto.
    destruct (name_char U c'); auto. pose proof (encode1_nonempty _ S'). lia.
  - destruct (char_run_text (name_char U) (a + w) b Bw) as (l' & N' & S' & E' & P' & M').
    + lia.
    + lia.
    + exists c, l'. simpl. rewrite Sc, F. repeat split; auto.
      rewrite (sub_split t a (a + w) b) by lia. rewrite Hw, E'. auto.
Qed.

Lemma first_byte_shape p b e : first_byte t p b e ->
  no_byte b (sub t p e) /\ (e = len \/ nth_error t e = Some b).
Proof.
  intros (F1 & F2 & F3 & F4). split; auto. intros I. apply In_nth_error in I as (i & I).
  pose proof (nth_error_lt _ _ _ I) as L. rewrite sub_length in L by lia.
  rewrite sub_nth_error in I by lia. apply (F3 (p + i)); auto; lia.
Qed.

Lemma ws_shape p e : skip_ws t p = Some e ->
  sub t p e <> [] /\ forallb is_ws (sub t p e) = true /\ (forall x, nth_error t e = Some x -> is_ws x = false).
Proof.
  intros H. apply skip_ws_some in H as (H1 & H2 & H3 & H4). repeat split; auto.
  - intros Q. apply (f_equal (@length N)) in Q. rewrite sub_length in Q by lia. simpl in Q. lia.
  - apply forallb_forall. intros x I. apply In_nth_error in I as (i & I).
    pose proof (nth_error_lt _ _ _ I) as L. rewrite sub_length in L by lia.
    rewrite sub_nth_error in I by lia. destruct (H3 (p + i)) as (b & B1 & B2); try lia. congruence.
Qed.

Lemma prefix_text x p : is_prefix x (skipn p t) = true -> sub t p (p + length x) = x.
Proof. apply is_prefix_sub. Qed.

Lemma plain_shape a b : plain_value t a b -> value_text t a b.
Proof.
  intros (H1 & H2 & H3 & n & H4 & H5 & H6).
  assert (HB : Bd t a) by (apply boundary_Bd; auto; lia).
  apply VT_plain with (m := a + n); [lia| |].
  - apply char_run_text; auto; lia.
  - destruct H6 as [[-> Q]|[-> Q]]; auto.
Qed.

Lemma quoted_shape a b : quoted_value t a b -> value_text t a b.
Proof.
  intros (q & Q & A & H1 & H2 & H3 & H4).
  assert (S1 : sub t a b = q :: sub t (a + 1) b).
  { rewrite (sub_split t a (a + 1) b) by lia. rewrite (sub_one _ _ _ A). auto. }
  assert (NB : forall e, e <= b -> (forall i, a + 1 <= i -> i < e -> nth_error t i <> Some q) -> no_byte q (sub t (a + 1) e)).
  { intros e Le H I. apply In_nth_error in I as (i & I).
    pose proof (nth_error_lt _ _ _ I) as L. destruct (Nat.le_gt_cases (a + 1) e).
    - rewrite sub_length in L by lia. rewrite sub_nth_error in I by lia. apply (H (a + 1 + i)); auto; lia.
    - unfold sub in I. replace (e - (a + 1)) with 0 in I by lia. destruct i; discriminate. }
  destruct H4 as [[H4 H5]|[-> H4]].
  - apply VT_quoted with (q := q) (body := sub t (a + 1) (b - 1)); auto.
    + rewrite S1. f_equal. rewrite (sub_split t (a + 1) (b - 1) b) by lia. f_equal.
      rewrite <- (sub_one _ _ _ H4). f_equal. lia.
    + apply NB; auto. lia.
  - apply VT_cut with (q := q) (body := sub t (a + 1) len); auto.
    apply NB; auto. intros i I1 I2. destruct (Nat.eq_dec i (len - 1)) as [->|].
    + destruct H4 as [H4|H4]; [lia|auto].
    + apply H3; lia.
Qed.

Lemma outcome_shape sc sc' : outcome U t emit cs sc sc' -> token_shape U t emit (token_of sc').
Proof.
  Local Ltac one := match goal with H : nth_error t _ = Some _ |- _ => apply (sub_one _ _ _ H) end.
  intros H; inv H; unfold token_shape; cbn [token_of tk_type tk_off tk_end tok tok_off pos finish].
  - auto.
  - apply (prefix_text (bs "-->")). auto.
  - destruct H3 as (F1 & F2 & F3 & F4).
    assert (pos sc <> e) by (intros <-; destruct F4 as [F4|[F4 _]]; [congruence|lia]).
    split; [lia|]. repeat split; auto.
  - one.
  - destruct H3 as (F1 & F2 & F3 & F4).
    assert (pos sc <> e) by (intros <-; destruct F4 as [F4|F4]; [lia|congruence]).
    split; [lia|]. apply first_byte_shape; repeat split; auto.
  - apply (prefix_text (bs "<!--")). auto.
  - apply m_doctype_some in H3 as (_ & _ & L & N0 & M). rewrite skipn_length in L.
    rewrite (sub_split t _ (pos sc + 1)) by lia. rewrite (sub_one _ _ _ H1).
    rewrite (sub_split t _ (pos sc + 1 + 1)) by lia. rewrite skipn_nth_error, Nat.add_0_r in N0.
    rewrite (sub_one _ _ _ N0). rewrite !map_app.
    replace (map ascii_lower (sub t (pos sc + 1 + 1) (pos sc + 9))) with (bs "doctype"); [reflexivity|].
    rewrite <- M. f_equal. unfold sub. rewrite skipn_skipn.
    replace (pos sc + 9 - (pos sc + 1 + 1)) with 7 by lia. simpl (8 - 1).
    f_equal. f_equal. lia.
  - rewrite (sub_split t _ (pos sc + 1)) by lia. rewrite (sub_one _ _ _ H1).
    replace (pos sc + 2) with (pos sc + 1 + 1) by lia. rewrite (sub_one _ _ _ H2). auto.
  - one.
  - destruct H3 as (F1 & F2 & F3 & F4).
    assert (pos sc <> e) by (intros <-; destruct F4 as [F4|F4]; [lia|congruence]).
    split; [lia|]. apply first_byte_shape; repeat split; auto.
  - apply elem_name_text; auto.
  - apply ws_shape; auto.
  - lia.
  - apply ws_shape; auto.
  - left. one.
  - right. auto.
  - lia.
  - apply elem_name_text; auto.
  - apply ws_shape; auto.
  - lia.
  - inv H2; cbn [token_of tk_type tk_off tk_end tok tok_off pos finish].
    + apply ws_shape; auto.
    + destruct H4 as (A1 & A2 & A3 & A4). apply char_run_text; auto. apply boundary_Bd; auto. lia.
    + apply (prefix_text (bs "/>")). auto.
    + left. one.
    + right. auto.
    + lia.
  - apply ws_shape; auto.
  - one.
  - apply ws_shape; auto.
  - apply plain_shape; auto.
  - apply quoted_shape; auto.
  - auto.
  - auto.
Qed.

Lemma scan_shape sc sc' : scan sc = Ok sc' -> token_shape U t emit (token_of sc').
Proof. intros H. eapply outcome_shape, scan_outcome; eauto. Qed.

Lemma tokens_forall (P : token -> Prop) :
  (forall sc sc', scan sc = Ok sc' -> P (token_of sc')) ->
  forall fuel sc l f, tokens U t emit cs fuel sc = Ok (l, f) -> Forall P l.
Proof.
  intros HP. induction fuel as [|fuel IH]; intros sc l f H; [discriminate|].
  cbn [tokens] in H. apply bind_ok in H as (sc' & S & H).
  destruct (token_eqb (tok sc') EOS); [inv H; auto|].
  apply bind_ok in H as ([l' f'] & T & H). inv H. constructor; eauto.
Qed.

(** ** Opaque content: what comes after the opening of a comment, a doctype, a
    script or a style. *)
Lemma scan_after_comment_open sc sc' : st sc = WithinComment -> pos sc <= len -> scan sc = Ok sc' ->
  first_str t (pos sc) (bs "-->") (pos sc) /\ pos sc < len /\ tok sc' = EndCommentTag /\ pos sc' = pos sc + 3 /\ st sc' = WithinContent \/
  exists e, first_str t (pos sc) (bs "-->") e /\ pos sc' = e /\ st sc' = WithinComment /\
   ((tok sc' = Comment /\ pos sc < e) \/ (tok sc' = EOS /\ pos sc = e /\ e = len)).
Proof.
  intros S L H. apply scan_outcome in H; auto. inv H; try congruence.
  - right. exists len. replace (pos sc) with len in * by lia. cbn. repeat split; auto; try lia.
    right. split; auto. intros i Hi. rewrite skipn_all2 by lia. auto.
  - left. cbn. pose proof (is_prefix_skipn_length _ _ _ H1 ltac:(discriminate)) as Q. cbn [length bs] in Q.
    repeat split; auto; try lia.
  - right. exists e. cbn. repeat split; auto; try apply H3. left. split; auto.
    destruct H3 as (F1 & F2 & F3 & F4).
    assert (pos sc <> e) by (intros <-; destruct F4 as [F4|[F4 _]]; [congruence|lia]). lia.
  - inv H0; [congruence|]. destruct H as [[? _]|[? _]]; congruence.
  - inv H0; [congruence|]. destruct H as [[? _]|[? _]]; congruence.
  - inv H0; [congruence|]. destruct H as [[? _]|[? _]]; congruence.
  - inv H0; [congruence|]. destruct H as [[? _]|[? _]]; congruence.
  - destruct H0; congruence.
  - inv H1; congruence.
Qed.

Lemma scan_after_doctype_open sc sc' : st sc = WithinDoctype -> pos sc <= len -> scan sc = Ok sc' ->
  (nth_error t (pos sc) = Some GT /\ tok sc' = EndDoctypeTag /\ pos sc' = pos sc + 1 /\ st sc' = WithinContent) \/
  exists e, first_byte t (pos sc) GT e /\ pos sc' = e /\ st sc' = WithinDoctype /\
   ((tok sc' = Doctype /\ pos sc < e) \/ (tok sc' = EOS /\ pos sc = e /\ e = len)).
Proof.
  intros S L H. apply scan_outcome in H; auto. inv H; try congruence.
  - right. exists len. replace (pos sc) with len in * by lia. cbn. repeat split; auto; try lia.
  - left. cbn. repeat split; auto; try lia.
  - right. exists e. cbn. repeat split; auto; try apply H3. left. split; auto.
    destruct H3 as (F1 & F2 & F3 & F4).
    assert (pos sc <> e) by (intros <-; destruct F4 as [F4|F4]; [lia|congruence]). lia.
  - inv H0; [congruence|]. destruct H as [[? _]|[? _]]; congruence.
  - inv H0; [congruence|]. destruct H as [[? _]|[? _]]; congruence.
  - inv H0; [congruence|]. destruct H as [[? _]|[? _]]; congruence.
  - inv H0; [congruence|]. destruct H as [[? _]|[? _]]; congruence.
  - destruct H0; congruence.
  - inv H1; congruence.
Qed.

Lemma scan_in_script sc sc' : st sc = WithinScriptContent -> pos sc < len -> scan sc = Ok sc' ->
  exists e, script_run t 1 (pos sc) e /\
   ((pos sc < e /\ tok sc' = Script /\ tok_off sc' = pos sc /\ pos sc' = e /\
     (st sc' = WithinContent \/ (e = len /\ st sc' = WithinScriptContent))) \/
    (pos sc = e /\ tok sc' = EndTagOpen /\ pos sc' = e + 2)).
Proof.
  intros S L H. apply scan_outcome in H; auto.
  assert (CL : content_like t sc -> script_run t 1 (pos sc) (pos sc))
    by (intros [H1|[[H1 H2]|[H1 H2]]]; auto; congruence).
  assert (CS : content_like t sc -> is_prefix (bs "</script") (skipn (pos sc) t) = true).
  { intros H1. apply CL in H1. inv H1; try lia; auto;
      match goal with X : script_run _ _ _ _ |- _ => apply script_run_le in X; lia end. }
  inv H; try congruence; try lia.
  - exfalso. apply CS in H0. apply is_prefix_spec in H0 as (x & X). apply is_prefix_spec in H1 as (y & Y).
    rewrite X in Y. discriminate.
  - exfalso. apply CS in H0. apply is_prefix_spec in H0 as (x & X).
    apply m_doctype_some in H3 as (_ & _ & _ & N0 & _). rewrite skipn_nth_error, Nat.add_0_r in N0.
    assert (Q : nth_error t (pos sc + 1) = Some SLASH) by (rewrite <- skipn_nth_error, X; auto).
    rewrite Q in N0. discriminate.
  - exists (pos sc). split; [apply CL; auto|]. right. auto.
  - exfalso. apply CS in H0. apply is_prefix_spec in H0 as (x & X).
    apply H3. rewrite <- skipn_nth_error, X. auto.
  - destruct H0; congruence.
  - inv H1; congruence.
  - exists e. split; auto. left. cbn. repeat split; auto. destruct H3 as [->|[-> ->]]; auto.
Qed.

Lemma scan_in_style sc sc' : st sc = WithinStyleContent -> pos sc < len -> scan sc = Ok sc' ->
  exists e, first_str t (pos sc) (bs "</style") e /\
   ((pos sc < e /\ tok sc' = Styles /\ tok_off sc' = pos sc /\ pos sc' = e /\ st sc' = WithinContent) \/
    (pos sc = e /\ tok sc' = EndTagOpen /\ pos sc' = e + 2)).
Proof.
  intros S L H. apply scan_outcome in H; auto.
  assert (CS : content_like t sc -> is_prefix (bs "</style") (skipn (pos sc) t) = true)
    by (intros [H1|[[H1 H2]|[H1 H2]]]; auto; congruence).
  inv H; try congruence; try lia.
  - exfalso. apply CS in H0. apply is_prefix_spec in H0 as (x & X). apply is_prefix_spec in H1 as (y & Y).
    rewrite X in Y. discriminate.
  - exfalso. apply CS in H0. apply is_prefix_spec in H0 as (x & X).
    apply m_doctype_some in H3 as (_ & _ & _ & N0 & _). rewrite skipn_nth_error, Nat.add_0_r in N0.
    assert (Q : nth_error t (pos sc + 1) = Some SLASH) by (rewrite <- skipn_nth_error, X; auto).
    rewrite Q in N0. discriminate.
  - exists (pos sc). split; [repeat split; auto; try lia|]. right. auto.
  - exfalso. apply CS in H0. apply is_prefix_spec in H0 as (x & X).
    apply H3. rewrite <- skipn_nth_error, X. auto.
  - destruct H0; congruence.
  - inv H1; congruence.
  - exists e. split; auto. left. cbn. repeat split; auto.
Qed.
End P.
