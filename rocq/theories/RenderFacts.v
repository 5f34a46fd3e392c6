(** * Parsing what was rendered: facts for C21 *)
From Verif Require Import Base BaseFacts Stream Scanner ScannerFacts ScanStep ScanComplete ScanPanic
  Tree Parser Render.
From Coq Require Import ZifyBool ZifyNat ZifyN.

(** ** Strings *)
Lemma u_app a b : Utf8 a -> Utf8 b -> Utf8 (a ++ b).
Proof.
  intros (x & X & ->) (y & Y & ->). exists (x ++ y). rewrite forallb_app, X, Y, encode_app. auto.
Qed.
Lemma u_nil : Utf8 [].
Proof. exists []. auto. Qed.
Lemma u_one b : (b < 128)%N -> Utf8 [b].
Proof. intros H. apply ascii_utf8. cbn. lia. Qed.
Lemma made_of_utf8 f s : made_of f s -> Utf8 s.
Proof. intros (c & -> & H). exists c. split; auto. apply forallb_forall. intros x I. apply H; auto. Qed.
Lemma blank_ws s : blank s <-> forall b, In b s -> is_ws b = true.
Proof.
  unfold blank, is_ws. cbn. split; intros H b I; specialize (H b I).
  - destruct H as [<-|[<-|[<-|[<-|[<-|[]]]]]]; reflexivity.
  - assert (Q : (b = 32 \/ b = 9 \/ b = 10 \/ b = 12 \/ b = 13)%N) by lia.
    destruct Q as [-> |[-> |[-> |[-> | ->]]]]; auto 6.
Qed.
Lemma blank_utf8 s : blank s -> Utf8 s.
Proof.
  intros H. rewrite blank_ws in H. apply ascii_utf8. unfold all_ascii. apply forallb_forall. intros b I.
  apply H in I. unfold is_ws in I. lia.
Qed.
Lemma good_name_utf8 U n : good_name U n -> Utf8 n /\ n <> [].
Proof.
  intros (c & r & C & _ & M & ->). split.
  - apply u_app; [|eapply made_of_utf8; eauto]. exists [c]. cbn. rewrite C, app_nil_r. auto.
  - pose proof (encode1_nonempty c C). destruct (encode1 c); [cbn in *; lia|discriminate].
Qed.

Lemma char_run_stop f l b s : (forall c, In c l -> scalar c = true /\ f c = true) ->
  (b < 128)%N -> f b = false -> char_run f (encode l ++ b :: s) = length (encode l).
Proof.
  intros H B F. induction l as [|c l IH].
  - cbn. replace (b <? 128)%N with true by lia. rewrite F. auto.
  - rewrite encode_cons, <- app_assoc, char_run_encode1 by (apply H; cbn; auto).
    rewrite (proj2 (H c (or_introl eq_refl))), IH, app_length; auto. intros x I. apply H. cbn; auto.
Qed.

(** Bytes after which no name goes on. *)
Definition stops (b : N) : Prop := is_ws b = true \/ b = 62%N \/ b = 47%N.
Lemma stops_ascii b : stops b -> (b < 128)%N.
Proof. unfold stops, is_ws. lia. Qed.
Lemma stops_name U b : stops b -> name_char U b = false.
Proof.
  intros H. pose proof (stops_ascii b H). unfold name_char, name_start_char, is_word.
  replace (b <? 128)%N with true by lia.
  unfold ascii_alnum, ascii_alpha, ascii_digit, ascii_upper_letter, ascii_lower_letter.
  unfold stops, is_ws in *. lia.
Qed.
Lemma stops_attr b : stops b \/ b = 61%N -> attr_char b = false.
Proof. unfold stops, is_ws, attr_char, is_uspace. lia. Qed.
Lemma stops_bare b : is_ws b = true \/ b = 62%N -> val_char b = false.
Proof. unfold is_ws, val_char, is_uspace. lia. Qed.
Lemma name_rest_char U c : name_rest U c -> name_char U c = true.
Proof.
  unfold name_rest, name_start, name_char, name_start_char. intros [[-> |[-> |H]]|[-> | ->]]; rewrite ?H, ?orb_true_r; auto.
Qed.
Lemma name_start_start U c : name_start U c -> name_start_char U c = true.
Proof. unfold name_start, name_start_char. intros [-> |[-> |H]]; auto. rewrite H, orb_true_r. auto. Qed.
Lemma attr_char_ok c : attr_name_char c -> attr_char c = true.
Proof.
  unfold attr_name_char, attr_char, is_c1. intros (A & B & C & D). rewrite A. cbn in B. lia.
Qed.
Lemma bare_char_ok c : bare_char c -> val_char c = true.
Proof. unfold bare_char, val_char. intros (A & B). rewrite A. cbn in B. lia. Qed.

(** First bytes. *)
Lemma name_first_byte U n : good_name U n -> exists b r, n = b :: r /\ is_ws b = false /\
  b <> 33%N /\ b <> 47%N /\ b <> 62%N /\ b <> 60%N /\ b <> 61%N.
Proof.
  intros (c & r & C & F & M & ->). pose proof (encode1_nonempty c C).
  destruct (encode1 c) as [|b r'] eqn:E; [cbn in *; lia|]. exists b, (r' ++ r). split; auto.
  destruct (N.lt_ge_cases b 128) as [L|L].
  - destruct (encode1_ascii c b r' C E L) as [-> _].
    unfold name_start, is_word in F. replace (b <? 128)%N with true in F by lia.
    unfold ascii_alnum, ascii_alpha, ascii_digit, ascii_upper_letter, ascii_lower_letter in F.
    unfold is_ws. lia.
  - unfold is_ws. lia.
Qed.
Lemma made_first f n : made_of f n -> n <> [] -> exists b r, n = b :: r /\
  ((b < 128)%N -> f b).
Proof.
  intros (l & -> & H) NE. destruct l as [|c l]; [tauto|]. rewrite encode_cons in *.
  destruct (H c (or_introl eq_refl)) as [C F]. pose proof (encode1_nonempty c C).
  destruct (encode1 c) as [|b r'] eqn:E; [cbn in *; lia|]. exists b, (r' ++ encode l). split; auto.
  intros L. destruct (encode1_ascii c b r' C E L) as [-> _]. auto.
Qed.
Lemma attr_first n : made_of attr_name_char n -> n <> [] -> exists b r, n = b :: r /\
  is_ws b = false /\ b <> 61%N.
Proof.
  intros M NE. destruct (made_first _ _ M NE) as (b & r & -> & H). exists b, r. split; auto.
  destruct (N.lt_ge_cases b 128) as [L|L].
  - destruct (H L) as (A & B & _). cbn in B. unfold is_uspace in A. unfold is_ws. lia.
  - unfold is_ws. lia.
Qed.
Lemma bare_first n : made_of bare_char n -> n <> [] -> exists b r, n = b :: r /\
  is_ws b = false /\ b <> 34%N /\ b <> 39%N.
Proof.
  intros M NE. destruct (made_first _ _ M NE) as (b & r & -> & H). exists b, r. split; auto.
  destruct (N.lt_ge_cases b 128) as [L|L].
  - destruct (H L) as (A & B). cbn in B. unfold is_uspace in A. unfold is_ws. lia.
  - unfold is_ws. lia.
Qed.

(** ** Attribute maps *)
Lemma attr_insert_new k a l : attr_get k l = None -> attr_insert k a l = l ++ [(k, a)].
Proof.
  induction l as [|[k' a'] l IH]; cbn; auto. destruct (beq k k') eqn:E; [discriminate|]. intros H.
  rewrite IH; auto.
Qed.
Lemma attr_insert_last k a a' l : attr_get k l = None ->
  attr_insert k a (l ++ [(k, a')]) = l ++ [(k, a)].
Proof.
  induction l as [|[k' b] l IH]; cbn; [rewrite beq_refl; auto|].
  destruct (beq k k') eqn:E; [discriminate|]. intros H. rewrite IH; auto.
Qed.
Lemma attr_get_last k a l : attr_get k l = None -> attr_get k (l ++ [(k, a)]) = Some a.
Proof.
  induction l as [|[k' b] l IH]; cbn; [rewrite beq_refl; auto|].
  destruct (beq k k') eqn:E; [discriminate|]. auto.
Qed.
Lemma attr_get_other k k' a l : attr_get k l = None -> k <> k' -> attr_get k (l ++ [(k', a)]) = None.
Proof.
  induction l as [|[k2 b] l IH]; cbn; intros H N.
  - apply beq_neq in N. rewrite N. auto.
  - destruct (beq k k2); [discriminate|]. auto.
Qed.

Section Run.
Variable U : unicode.
Variable t : str.
Variable cs : bool.
Variable void : list str.
Hypothesis HU : Utf8 t.
Notation norm := (norm U cs).
Notation same := (same U cs).
Notation outcome := (outcome U t true cs).
Notation parse_loop := (parse_loop U t cs void).

(** [at_ p s]: the text from the boundary [p] on is [s]. *)
Definition at_ (p : nat) (s : str) : Prop := skipn p t = s /\ Bd t p.
Lemma at_adv p a s : at_ p (a ++ s) -> Utf8 a -> at_ (p + length a) s.
Proof.
  intros [A B] (x & X & ->). split.
  - rewrite Nat.add_comm, <- skipn_skipn, A, skipn_app, skipn_all, Nat.sub_diag. auto.
  - destruct (Bd_skipn _ _ B) as (y & Y & E). rewrite A in E.
    assert (P : is_prefix (encode x) (encode y) = true) by (apply is_prefix_spec; eauto).
    assert (B2 : Bd t (p + length (encode x)) \/ True) by auto. clear B2.
    apply boundary_Bd; auto.
    + pose proof (Bd_le _ _ B). assert (L : length (skipn p t) = length (encode x ++ s)) by congruence.
      rewrite skipn_length, app_length in L. lia.
    + destruct s as [|b s].
      * assert (L : length (skipn p t) = length (encode x ++ [])) by congruence. pose proof (Bd_le _ _ B).
        rewrite skipn_length, app_length in L. cbn in L. replace (p + length (encode x)) with (length t) by lia.
        apply boundary_len.
      * unfold is_boundary. destruct (p + length (encode x) =? 0); auto.
        destruct (p + length (encode x) =? length t); auto. cbn [orb].
        assert (Nb : nth_error t (p + length (encode x)) = Some b).
        { rewrite <- skipn_nth_error, A, nth_error_app2, Nat.sub_diag by lia. auto. }
        rewrite Nb.
        (* [b] begins a character *)
        enough (Q : Utf8 (b :: s)).
        { destruct Q as (z & Z & EZ). destruct z as [|c z]; [discriminate|]. cbn in Z.
          apply andb_true_iff in Z as [Zc _]. rewrite encode_cons in EZ.
          destruct (encode1 c) as [|b' r'] eqn:Ec; [pose proof (encode1_nonempty c Zc) as Q; rewrite Ec in Q; cbn in Q; lia|].
          inversion EZ. subst b'. rewrite (encode1_first c b r' Zc Ec). auto. }
        clear - E X Y. revert y Y E. induction x as [|c x IH]; intros y Y E.
        { exists y. auto. }
        cbn in X. apply andb_true_iff in X as [Xc X]. rewrite encode_cons, <- app_assoc in E.
        destruct y as [|d y].
        { pose proof (encode1_nonempty c Xc). apply (f_equal (@length N)) in E. rewrite app_length in E. cbn in E. lia. }
        cbn in Y. apply andb_true_iff in Y as [Yd Y]. rewrite encode_cons in E.
        assert (D : decode1 (encode1 c ++ encode x ++ b :: s) = decode1 (encode1 d ++ encode y)) by congruence.
        rewrite <- (encode_cons d y), decode1_encode in D by auto.
        assert (D2 : decode1 (encode1 c ++ encode x ++ b :: s) = Some (c, length (encode1 c))).
        { apply encode1_shape in Xc. destruct Xc; subst; cbn [app length decode1].
          - replace (c <? 128)%N with true by lia. auto.
          - replace (a <? 128)%N with false by lia. replace (a <? 224)%N with true by lia. auto.
          - replace (a <? 128)%N with false by lia. replace (a <? 224)%N with false by lia.
            replace (a <? 240)%N with true by lia. auto.
          - replace (a <? 128)%N with false by lia. replace (a <? 224)%N with false by lia.
            replace (a <? 240)%N with false by lia. auto. }
        rewrite D2 in D. inversion D. subst d. apply app_inv_head in E. eauto.
Qed.
Lemma at_first p b s : at_ p (b :: s) -> nth_error t p = Some b.
Proof. intros [A _]. rewrite <- (Nat.add_0_r p), <- skipn_nth_error, A. auto. Qed.
Lemma at_nth p s i : at_ p s -> nth_error t (p + i) = nth_error s i.
Proof. intros [A _]. rewrite <- skipn_nth_error, A. auto. Qed.
Lemma at_len p s : at_ p s -> p + length s = length t.
Proof.
  intros [A B]. apply Bd_le in B. apply (f_equal (@length N)) in A. rewrite skipn_length in A. lia.
Qed.
Lemma at_sub p a s : at_ p (a ++ s) -> sub t p (p + length a) = a.
Proof.
  intros [A _]. unfold sub. rewrite A. replace (p + length a - p) with (length a) by lia.
  rewrite firstn_app, firstn_all, Nat.sub_diag. cbn. apply app_nil_r.
Qed.
Lemma at_slice p a s : at_ p (a ++ s) -> Utf8 a -> slice t p (p + length a) = Ok a.
Proof.
  intros A Ua. rewrite <- (at_sub _ _ _ A) at 2. apply slice_ok.
  pose proof (at_len _ _ A) as L. rewrite app_length in L.
  destruct (at_adv _ _ _ A Ua) as [_ B2]. destruct A as [_ B1].
  repeat split; auto using Bd_boundary; lia.
Qed.
Lemma at_prefix p a s : at_ p (a ++ s) -> is_prefix a (skipn p t) = true.
Proof. intros [-> _]. apply is_prefix_spec. eauto. Qed.

(** White space *)
Lemma at_ws p w s : at_ p (w ++ s) -> blank w -> w <> [] ->
  (forall b r, s = b :: r -> is_ws b = false) -> skip_ws t p = Some (p + length w).
Proof.
  intros [A _] W NE S. unfold skip_ws. rewrite A. rewrite blank_ws in W.
  assert (E : ws_len (w ++ s) = length w).
  { clear - W S. induction w as [|b w IH]; cbn.
    - destruct s as [|b s]; auto. cbn. rewrite (S b s); auto.
    - rewrite W by (cbn; auto). rewrite IH; auto. intros x I. apply W. cbn; auto. }
  rewrite E. destruct w; [tauto|]. cbn. auto.
Qed.
Lemma at_no_ws p b s : at_ p (b :: s) -> is_ws b = false -> skip_ws t p = None.
Proof. intros A. apply skip_ws_not. eapply at_first; eauto. Qed.

(** Names *)
Lemma at_elem p n b s : at_ p (n ++ b :: s) -> good_name U n -> stops b -> elem_name U t p (p + length n).
Proof.
  intros A G S. destruct (good_name_utf8 _ _ G) as [Gu NE].
  pose proof (at_len _ _ A) as L. rewrite app_length in L. cbn in L.
  destruct G as (c & r & C & F & (l & -> & M) & E). assert (A' := A). destruct A' as [A1 A2].
  repeat split.
  - destruct n; [tauto|cbn; lia].
  - lia.
  - apply Bd_boundary; auto.
  - rewrite A1. unfold m_element_name.
    assert (D : decode1 (n ++ b :: s) = Some (c, length (encode1 c))).
    { rewrite E, <- app_assoc. clear - C. apply encode1_shape in C. destruct C; subst; cbn [app length decode1].
          - replace (c <? 128)%N with true by lia. auto.
          - replace (a <? 128)%N with false by lia. replace (a <? 224)%N with true by lia. auto.
          - replace (a <? 128)%N with false by lia. replace (a <? 224)%N with false by lia.
            replace (a <? 240)%N with true by lia. auto.
          - replace (a <? 128)%N with false by lia. replace (a <? 224)%N with false by lia.
            replace (a <? 240)%N with false by lia. auto. }
    rewrite D, (name_start_start _ _ F). rewrite E, <- app_assoc, skipn_app, skipn_all, Nat.sub_diag. cbn [skipn app].
    rewrite char_run_stop.
    + rewrite app_length. do 2 f_equal. lia.
    + intros x I. destruct (M x I). auto using name_rest_char.
    + apply stops_ascii; auto.
    + apply stops_name; auto.
Qed.
Lemma at_attr p n b s : at_ p (n ++ b :: s) -> made_of attr_name_char n -> n <> [] ->
  stops b \/ b = 61%N -> attr_name t p (p + length n).
Proof.
  intros A (l & -> & M) NE S. pose proof (at_len _ _ A) as L. rewrite app_length in L. cbn in L.
  destruct A as [A1 A2]. repeat split.
  - destruct (encode l); [tauto|cbn; lia].
  - lia.
  - apply Bd_boundary; auto.
  - rewrite A1, char_run_stop; [lia| | |].
    + intros x I. destruct (M x I). auto using attr_char_ok.
    + destruct S as [S| ->]; [apply stops_ascii; auto|reflexivity].
    + apply stops_attr; auto.
Qed.
Lemma at_plain p v b s : at_ p (v ++ b :: s) -> made_of bare_char v -> v <> [] ->
  is_ws b = true \/ b = 62%N -> plain_value t p (p + length v).
Proof.
  intros A M NE S. pose proof (at_len _ _ A) as L. rewrite app_length in L. cbn in L.
  assert (Nb : nth_error t (p + length v) = Some b).
  { rewrite (at_nth _ _ _ A), nth_error_app2, Nat.sub_diag by lia. auto. }
  destruct A as [A1 A2]. destruct M as (l & -> & M). repeat split.
  - destruct (encode l); [tauto|cbn; lia].
  - lia.
  - apply Bd_boundary; auto.
  - exists (length (encode l)). split; [destruct (encode l); [tauto|cbn; lia]|]. split.
    + rewrite A1, char_run_stop; auto.
      * intros x I. destruct (M x I). auto using bare_char_ok.
      * destruct S as [S| ->]; [unfold is_ws in S; lia|reflexivity].
      * apply stops_bare; auto.
    + right. split; auto. rewrite Nb. unfold SQUOTE, DQUOTE. destruct S as [S| ->]; split; intros E; inversion E; subst b; discriminate.
Qed.
Lemma at_quoted p q v s : at_ p ([q] ++ v ++ [q] ++ s) -> q = 34%N \/ q = 39%N -> ~ In q v ->
  quoted_value t p (p + length ([q] ++ v ++ [q])).
Proof.
  intros A Q N. pose proof (at_len _ _ A) as L. rewrite !app_length in *. cbn in L.
  cbn [length]. exists q. split; [unfold SQUOTE, DQUOTE; tauto|].
  split; [apply (at_first p q (v ++ [q] ++ s)); auto|]. split; [lia|]. split; [lia|]. split.
  - intros i I1 I2 E. apply N. replace i with (p + (i - p)) in E by lia. rewrite (at_nth _ _ _ A) in E.
    cbn [app] in E. destruct (i - p) as [|j] eqn:J; [lia|]. cbn [nth_error] in E.
    rewrite nth_error_app1 in E by lia. eapply nth_error_In; eauto.
  - left. split; [|lia]. replace (p + (1 + (length v + 1)) - 1) with (p + (1 + length v)) by lia.
    rewrite (at_nth _ _ _ A). cbn. rewrite nth_error_app2, Nat.sub_diag by lia. auto.
Qed.

(** ** Runs of the parser's loop over non-empty tokens *)
Inductive run : scanner -> pstate -> scanner -> pstate -> Prop :=
| run_nil sc p : run sc p sc p
| run_cons sc p sc1 p1 sc2 p2 :
    Bd t (pos sc) -> scan U t true cs sc = Ok sc1 -> tok sc1 <> EOS -> pos sc < pos sc1 ->
    pstep U t cs void sc1 p = Ok p1 -> run sc1 p1 sc2 p2 -> run sc p sc2 p2.
Lemma run_trans sc p sc1 p1 sc2 p2 : run sc p sc1 p1 -> run sc1 p1 sc2 p2 -> run sc p sc2 p2.
Proof. induction 1; auto. intros. eapply run_cons; eauto. Qed.
Lemma run_loop sc p sc1 p1 : run sc p sc1 p1 -> pos sc <= pos sc1 /\
  exists k, k <= pos sc1 - pos sc /\ forall f, parse_loop (k + f) sc p = parse_loop f sc1 p1.
Proof.
  induction 1 as [|sc p sc1 p1 sc2 p2 _ A B C D _ (L & k & K & E)].
  - split; auto. exists 0. split; [lia|auto].
  - split; [lia|]. exists (Datatypes.S k). split; [lia|]. intros f. cbn [Nat.add Parser.parse_loop].
    rewrite A. cbn [bind]. apply token_eqb_neq in B. rewrite B, D. cbn [bind]. auto.
Qed.
Lemma one sc p sc1 p1 : outcome sc sc1 -> Bd t (pos sc) -> tok sc1 <> Script -> tok sc1 <> EOS ->
  pos sc < pos sc1 -> pstep U t cs void sc1 p = Ok p1 -> run sc p sc1 p1.
Proof.
  intros O B N1 N2 L P. eapply run_cons; eauto; [|apply run_nil]. apply outcome_scan; auto.
Qed.

(** ** Inside a start tag *)
Definition in_tag (sc : scanner) : Prop := st sc = WithinTag \/ st sc = AfterAttributeName.
Lemma enter sc b s : in_tag sc -> at_ (pos sc) (b :: s) -> is_ws b = false -> b <> EQ ->
  enter_tag t sc (set_st WithinTag sc).
Proof.
  intros [I|I] A W N.
  - replace (set_st WithinTag sc) with sc by (destruct sc; cbn in *; subst; auto). apply ET_tag; auto.
  - apply ET_attr; auto.
    + eapply at_no_ws; eauto.
    + rewrite (at_first _ _ _ A). congruence.
Qed.
Lemma tag_space sc p w s : in_tag sc -> at_ (pos sc) (w ++ s) -> blank w -> w <> [] ->
  (forall b r, s = b :: r -> is_ws b = false) ->
  exists sc1, run sc p sc1 p /\ pos sc1 = pos sc + length w /\ has_space sc1 = true /\ st sc1 = st sc /\
    last_tag sc1 = last_tag sc /\ last_type sc1 = last_type sc.
Proof.
  intros I A W NE S. pose proof (at_ws _ _ _ A W NE S) as K.
  pose proof (at_len _ _ A) as L. rewrite app_length in L.
  assert (NE' : 0 < length w) by (destruct w; [tauto|cbn; lia]).
  exists (finish (set_space true sc) (pos sc) Whitespace None (pos sc + length w) (st sc)). split; [|cbn; auto].
  apply one; cbn [tok finish pos]; try discriminate; try lia.
  - destruct I as [I|I].
    + eapply O_in_tag; [lia|apply ET_tag; auto|]. apply TO_ws; auto.
    + rewrite I. apply O_attr_ws; auto.
  - apply A.
  - reflexivity.
Qed.
Lemma tag_space0 sc p w s : in_tag sc -> at_ (pos sc) (w ++ s) -> blank w ->
  (forall b r, s = b :: r -> is_ws b = false) ->
  exists sc1, run sc p sc1 p /\ pos sc1 = pos sc + length w /\ st sc1 = st sc /\
    last_tag sc1 = last_tag sc /\ last_type sc1 = last_type sc.
Proof.
  intros I A W S. destruct w as [|b w].
  - exists sc. split; [apply run_nil|]. cbn. auto.
  - destruct (tag_space sc p _ s I A W) as (sc1 & R & H); auto; [discriminate|]. exists sc1. tauto.
Qed.

(** One attribute *)
Lemma one_attr sc p a b s : in_tag sc -> at_ (pos sc) (render_attr a ++ b :: s) -> good_attr a ->
  stops b -> (b = 47%N -> forall gap v, ha_value a <> Bare gap v) ->
  attr_get (ha_name a) (n_attrs (cur p)) = None ->
  exists sc1 p1, run sc p sc1 p1 /\ in_tag sc1 /\ pos sc1 = pos sc + length (render_attr a) /\
    last_tag sc1 = last_tag sc /\ (~ same (ha_name a) (bs "type") -> last_type sc1 = last_type sc) /\
    cur p1 = set_attrs (n_attrs (cur p) ++
      [(ha_name a, mkAttr (value_text (ha_value a)) (pos sc + length (ha_space a)))]) (cur p) /\
    parents p1 = parents p.
Proof.
  intros I A (G1 & G2 & G3 & G4 & G5) ST NB F. unfold render_attr in *. rewrite <- !app_assoc in A.
  destruct (attr_first _ G4 G3) as (c & r & En & Wc & Ec).
  destruct (tag_space sc p _ _ I A G1 G2) as (s1 & R1 & P1 & H1 & S1 & T1 & Y1).
  { intros x y E. rewrite En in E. inversion E. subst x. auto. }
  apply at_adv in A; [|apply blank_utf8; auto]. rewrite <- P1 in A.
  (* the name *)
  set (rest := render_value (ha_value a) ++ b :: s) in *.
  assert (RB : exists d rest', rest = d :: rest' /\ (stops d \/ d = 61%N)).
  { unfold rest. destruct (ha_value a) as [|gap v|gap q v]; cbn [render_value app].
    - exists b, s. auto.
    - destruct G5 as [G5 _]. destruct gap as [|d gap].
      + exists 61%N. eexists. split; [reflexivity|auto].
      + exists d. eexists. split; [reflexivity|]. left. left. rewrite blank_ws in G5. apply G5. cbn; auto.
    - destruct G5 as [G5 _]. destruct gap as [|d gap].
      + exists 61%N. eexists. split; [reflexivity|auto].
      + exists d. eexists. split; [reflexivity|]. left. left. rewrite blank_ws in G5. apply G5. cbn; auto. }
  destruct RB as (d & rest' & Er & Sd). rewrite Er in A.
  pose proof (at_attr _ _ _ _ A G4 G3 Sd) as AN. pose proof (made_of_utf8 _ _ G4) as Un.
  pose proof (at_slice _ _ _ A Un) as SL. pose proof (at_sub _ _ _ A) as SB.
  assert (NE : 0 < length (ha_name a)) by (rewrite En; cbn; lia).
  pose proof (at_len _ _ A) as L. rewrite app_length in L. cbn [length] in L.
  assert (A' := A). rewrite En in A'. cbn [app] in A'.
  set (s2 := finish (set_space false (set_last_attr (Some (norm (ha_name a))) (set_st WithinTag s1)))
               (pos s1) AttributeName None (pos s1 + length (ha_name a)) AfterAttributeName).
  set (p2 := mkP (set_attrs (n_attrs (cur p) ++ [(ha_name a, mkAttr None (pos s1))]) (cur p))
               (parents p) (end_tag_start p) (end_tag_name p) (Some (ha_name a))).
  assert (R2 : run s1 p s2 p2).
  { apply one; cbn [tok finish pos s2]; try discriminate; try lia.
    - eapply O_in_tag; [lia|eapply enter; eauto; unfold in_tag; rewrite S1; auto|].
      unfold s2. rewrite <- SB at 1. change (pos s1) with (pos (set_st WithinTag s1)) at 1 2 3.
      apply TO_attr; auto. cbn [pos set_st]. eapply at_no_ws; eauto.
    - apply A.
    - unfold pstep. cbn [tok finish s2]. unfold token_text. cbn [tok_off pos finish s2]. rewrite SL. cbn [bind].
      rewrite attr_insert_new by auto. reflexivity. }
  assert (A2 := A). apply at_adv in A2; auto. rewrite <- Er in A2.
  change (pos s1 + length (ha_name a)) with (pos s2) in A2.
  assert (NT : ~ same (ha_name a) (bs "type") -> opt_beq (last_attr s2) (bs "type") = false).
  { intros N. cbn [last_attr s2 finish set_space set_last_attr opt_beq]. apply beq_neq. intros E. apply N.
    unfold same, norm in *. destruct cs; auto. }
  assert (G0 : attr_get (ha_name a) (n_attrs (cur p2)) = Some (mkAttr None (pos s1))).
  { cbn [cur p2 n_attrs set_attrs]. apply attr_get_last. auto. }
  (* the rest of a value, once [gap] and '=' are read *)
  assert (VAL : forall gap v, ha_value a <> NoValue -> render_value (ha_value a) = gap ++ bs "=" ++ v ->
     value_text (ha_value a) = Some v -> blank gap -> Utf8 v ->
     (forall sc, st sc = BeforeAttributeValue -> at_ (pos sc) (v ++ b :: s) ->
        exists y, outcome sc (finish (set_space false (set_last_type y sc)) (pos sc) AttributeValue None
                              (pos sc + length v) WithinTag) /\
          (opt_beq (last_attr sc) (bs "type") = false -> y = last_type sc)) -> 0 < length v ->
     exists sc1 p1, run s2 p2 sc1 p1 /\ in_tag sc1 /\ pos sc1 = pos s2 + length (render_value (ha_value a)) /\
       last_tag sc1 = last_tag sc /\ (~ same (ha_name a) (bs "type") -> last_type sc1 = last_type sc) /\
       cur p1 = set_attrs (n_attrs (cur p) ++
         [(ha_name a, mkAttr (value_text (ha_value a)) (pos sc + length (ha_space a)))]) (cur p) /\
       parents p1 = parents p).
  { intros gap v _ RV VT BG UV SV LV. unfold rest in A2. rewrite RV, <- !app_assoc in A2.
    assert (EXg : exists s3, run s2 p2 s3 p2 /\ pos s3 = pos s2 + length gap /\ st s3 = AfterAttributeName /\
      last_tag s3 = last_tag s2 /\ last_type s3 = last_type s2 /\ last_attr s3 = last_attr s2).
    { destruct gap as [|g gap].
      - exists s2. split; [apply run_nil|]. cbn. auto.
      - pose proof (at_ws _ _ _ A2 BG ltac:(discriminate)) as K.
        specialize (K ltac:(intros x y E; inversion E; reflexivity)).
        exists (finish (set_space true s2) (pos s2) Whitespace None (pos s2 + length (g :: gap)) AfterAttributeName).
        split; [|cbn; auto]. apply one; cbn [tok finish pos length]; try discriminate; try lia.
        + apply O_attr_ws; auto.
        + apply A2.
        + reflexivity. }
    destruct EXg as (s3 & R3 & P3 & S3 & T3 & Y3 & LA3).
    apply at_adv in A2; [|apply blank_utf8; auto]. rewrite <- P3 in A2.
    set (s4 := finish s3 (pos s3) DelimiterAssign None (pos s3 + 1) BeforeAttributeValue).
    set (p4 := mkP (set_attrs (n_attrs (cur p) ++ [(ha_name a, mkAttr (Some []) (pos s1))]) (cur p))
                   (parents p) (end_tag_start p) (end_tag_name p) (Some (ha_name a))).
    assert (R4 : run s3 p2 s4 p4).
    { apply one; cbn [tok finish pos s4]; try discriminate; try lia.
      - apply O_assign; auto. eapply at_first. exact A2.
      - apply A2.
      - unfold pstep. cbn [tok finish s4 pending p2]. unfold set_attr_value.
        rewrite G0. cbn [unwrap bind a_off]. cbn [cur p2 n_attrs set_attrs].
        rewrite attr_insert_last by auto. reflexivity. }
    assert (A4 := A2). apply (at_adv _ (bs "=")) in A4; [|apply u_one; reflexivity].
    change (pos s3 + length (bs "=")) with (pos s4) in A4.
    destruct (SV s4 eq_refl A4) as (y & O & Hy).
    set (s5 := finish (set_space false (set_last_type y s4)) (pos s4) AttributeValue None
                      (pos s4 + length v) WithinTag) in *.
    pose proof (at_slice _ _ _ A4 UV) as SL4.
    set (p5 := mkP (set_attrs (n_attrs (cur p) ++ [(ha_name a, mkAttr (Some v) (pos s1))]) (cur p))
                   (parents p) (end_tag_start p) (end_tag_name p) None).
    assert (R5 : run s4 p4 s5 p5).
    { apply one; auto; cbn [tok finish pos s5]; try discriminate; try lia.
      - apply A4.
      - unfold pstep. cbn [tok finish s5]. unfold token_text. cbn [tok_off pos finish s5]. rewrite SL4.
        cbn [bind pending p4]. unfold set_attr_value. cbn [cur p4 n_attrs set_attrs].
        rewrite attr_get_last by auto. cbn [unwrap bind a_off]. rewrite attr_insert_last by auto. reflexivity. }
    exists s5, p5. split; [eapply run_trans; eauto; eapply run_trans; eauto|].
    split; [left; auto|]. split.
    { cbn [pos s5 finish s4]. rewrite RV, !app_length. cbn [length bs]. lia. }
    split; [cbn [last_tag s5 finish set_space set_last_type s4]; rewrite T3; auto|].
    split.
    { intros N. cbn [last_type s5 finish set_space set_last_type]. rewrite Hy.
      - cbn [last_type s4 finish]. rewrite Y3. cbn. auto.
      - cbn [last_attr s4 finish]. rewrite LA3. auto. }
    rewrite VT. rewrite <- P1. auto. }
  rewrite !app_length, P1 in *.
  destruct (ha_value a) as [|gap v|gap q v] eqn:V.
  - exists s2, p2. split; [eapply run_trans; eauto|]. split; [right; auto|].
    cbn [render_value length pos s2 finish]. split; [lia|]. split; [cbn; auto|]. split; [cbn; auto|].
    split; [|auto]. cbn. rewrite P1. auto.
  - destruct G5 as (G5 & G6 & G7).
    destruct (VAL gap v) as (s6 & p6 & R6 & H6); auto; try discriminate.
    + eapply made_of_utf8; eauto.
    + intros sc0 S0 A0. exists (new_type sc0 (sub t (pos sc0) (pos sc0 + length v))). split.
      * apply O_value_plain; auto.
        -- destruct (bare_first _ G7 G6) as (x & y & E & Wx & _). rewrite E in A0. eapply at_no_ws; eauto.
        -- eapply at_plain; eauto. destruct ST as [ST|[ST|ST]]; auto. exfalso. eapply NB; eauto.
      * unfold new_type. intros ->. auto.
    + destruct v; [tauto|cbn; lia].
    + exists s6, p6. split; [eapply run_trans; eauto; eapply run_trans; eauto|].
      destruct H6 as (H61 & H62 & H6). split; auto. split; [|auto].
      rewrite H62. cbn [pos s2 finish]. lia.
  - destruct G5 as (G5 & G6 & G7 & G8).
    destruct (VAL gap ([q] ++ v ++ [q])) as (s6 & p6 & R6 & H6); auto; try discriminate.
    + apply u_app; [apply u_one; lia|]. apply u_app; auto. apply u_one; lia.
    + intros sc0 S0 A0. rewrite <- !app_assoc in A0.
      pose proof (at_quoted _ _ _ _ A0 G6 G8) as Q.
      set (e := pos sc0 + length ([q] ++ v ++ [q])) in *.
      exists (new_type sc0 (if e - 1 <? pos sc0 + 1 then sub t (e - 1) (pos sc0 + 1)
                            else sub t (pos sc0 + 1) (e - 1))). split.
      * apply O_value_quoted; auto. intros _.
        assert (Q1 : Utf8 [q]) by (apply u_one; lia).
        pose proof (at_adv _ _ _ A0 Q1) as A5. pose proof (at_adv _ _ _ A5 G7) as A6.
        split; [apply Bd_boundary, A5|].
        replace (e - 1) with (pos sc0 + length [q] + length v); [apply Bd_boundary, A6|].
        unfold e. rewrite !app_length. cbn [length]. lia.
      * unfold new_type. intros ->. auto.
    + rewrite !app_length. cbn [length]. lia.
    + exists s6, p6. split; [eapply run_trans; eauto; eapply run_trans; eauto|].
      destruct H6 as (H61 & H62 & H6). split; auto. split; [|auto].
      rewrite H62. cbn [pos s2 finish]. lia.
Qed.

Lemma set_attrs_self n : set_attrs (n_attrs n) n = n.
Proof. destruct n; auto. Qed.
Lemma attrs_run l : forall sc p b s, in_tag sc -> at_ (pos sc) (render_attrs l ++ b :: s) ->
  Forall good_attr l -> NoDup (map ha_name l) ->
  (forall a, In a l -> attr_get (ha_name a) (n_attrs (cur p)) = None) ->
  stops b -> (b = 47%N -> forall l' a gap v, l = l' ++ [a] -> ha_value a <> Bare gap v) ->
  exists sc1 p1, run sc p sc1 p1 /\ in_tag sc1 /\ pos sc1 = pos sc + length (render_attrs l) /\
    last_tag sc1 = last_tag sc /\
    (Forall (fun a => ~ same (ha_name a) (bs "type")) l -> last_type sc1 = last_type sc) /\
    cur p1 = set_attrs (n_attrs (cur p) ++ attrs_from (pos sc) l) (cur p) /\ parents p1 = parents p.
Proof.
  induction l as [|a l IH]; intros sc p b s I A G D F ST NB.
  - exists sc, p. split; [apply run_nil|]. cbn. rewrite app_nil_r, set_attrs_self. auto 8.
  - inversion G as [|? ? Ga Gl]; subst. cbn in D. inversion D as [|? ? Na Nl]; subst.
    cbn [render_attrs flat_map] in *. change (flat_map render_attr l) with (render_attrs l) in *.
    rewrite <- app_assoc in A.
    assert (EX : exists c r, render_attrs l ++ b :: s = c :: r /\ stops c /\
                   (c = 47%N -> l = [])).
    { destruct l as [|a2 l].
      - exists b, s. auto.
      - inversion Gl as [|? ? Ga2 _]; subst. destruct Ga2 as (B1 & B2 & _).
        destruct (ha_space a2) as [|c r] eqn:E; [tauto|]. rewrite blank_ws in B1.
        exists c. eexists. split; [cbn [render_attrs flat_map]; unfold render_attr at 1; rewrite E; reflexivity|].
        assert (W : is_ws c = true) by (apply B1; cbn; auto).
        split; [left; auto|]. intros ->. discriminate. }
    destruct EX as (c & r & E & Sc & N47). rewrite E in A.
    destruct (one_attr sc p a c r I A Ga Sc) as (s1 & p1 & R1 & I1 & P1 & T1 & Y1 & C1 & Q1).
    { intros C gap v. specialize (N47 C). subst l. cbn in E. inversion E. subst c. eapply NB with (l' := []); auto. }
    { apply F. cbn; auto. }
    assert (UA : Utf8 (render_attr a)).
    { destruct Ga as (B1 & _ & _ & B2 & B3). unfold render_attr. apply u_app; [apply blank_utf8; auto|].
      apply u_app; [eapply made_of_utf8; eauto|]. destruct (ha_value a) as [|gap v|gap q v]; cbn [render_value].
      - apply u_nil.
      - destruct B3 as (? & _ & ?). apply u_app; [apply blank_utf8; auto|].
        apply u_app; [apply u_one; reflexivity|]. eapply made_of_utf8; eauto.
      - destruct B3 as (? & ? & ? & _). apply u_app; [apply blank_utf8; auto|].
        apply u_app; [apply u_one; reflexivity|]. apply u_app; [apply u_one; lia|].
        apply u_app; auto. apply u_one; lia. }
    apply at_adv in A; auto. rewrite <- P1, <- E in A.
    destruct (IH s1 p1 b s I1 A Gl Nl) as (s2 & p2 & R2 & I2 & P2 & T2 & Y2 & C2 & Q2); auto.
    { intros x X. rewrite C1. cbn [n_attrs set_attrs]. apply attr_get_other; [apply F; cbn; auto|].
      intros E2. apply Na. rewrite <- E2. apply in_map. auto. }
    { intros B l' x gap v El. apply NB with (l' := a :: l'); auto. rewrite El. auto. }
    exists s2, p2. split; [eapply run_trans; eauto|]. split; auto. split; [rewrite P2, P1, app_length; lia|].
    split; [congruence|]. split.
    { intros H. inversion H; subst. rewrite Y2, Y1; auto. }
    split; [|congruence]. rewrite C2, C1, P1. cbn [n_attrs set_attrs attrs_from]. rewrite <- app_assoc. reflexivity.
Qed.
Lemma attrs_utf8 l : Forall good_attr l -> Utf8 (render_attrs l).
Proof.
  induction 1 as [|a l (B1 & _ & _ & B2 & B3) _ IH]; [apply u_nil|]. cbn [render_attrs flat_map]. apply u_app; auto.
  unfold render_attr. apply u_app; [apply blank_utf8; auto|].
  apply u_app; [eapply made_of_utf8; eauto|]. destruct (ha_value a) as [|gap v|gap q v]; cbn [render_value].
  - apply u_nil.
  - destruct B3 as (? & _ & ?). apply u_app; [apply blank_utf8; auto|].
    apply u_app; [apply u_one; reflexivity|]. eapply made_of_utf8; eauto.
  - destruct B3 as (? & ? & ? & _). apply u_app; [apply blank_utf8; auto|].
    apply u_app; [apply u_one; reflexivity|]. apply u_app; [apply u_one; lia|].
    apply u_app; auto. apply u_one; lia.
Qed.

(** ** Start tags *)
Lemma start_run sc p name attrs pad b s : content_like t sc ->
  at_ (pos sc) (bs "<" ++ name ++ render_attrs attrs ++ pad ++ b :: s) ->
  good_name U name -> good_attrs attrs -> blank pad -> b = 62%N \/ b = 47%N ->
  (b = 47%N -> pad = [] -> forall l a gap v, attrs = l ++ [a] -> ha_value a <> Bare gap v) ->
  exists sc1 p1, run sc p sc1 p1 /\ in_tag sc1 /\ at_ (pos sc1) (b :: s) /\
    pos sc1 = pos sc + length (bs "<" ++ name ++ render_attrs attrs ++ pad) /\
    last_tag sc1 = Some (norm name) /\
    (Forall (fun a => ~ same (ha_name a) (bs "type")) attrs -> last_type sc1 = None) /\
    cur p1 = mkNode (Some name) (pos sc) (length t) [] false None None
               (attrs_from (pos sc + 1 + length name) attrs) /\
    parents p1 = cur p :: parents p.
Proof.
  intros CL A GN [GA1 GA2] BP HB NB. destruct (name_first_byte _ _ GN) as (c & r & En & Wc & N1 & N2 & N3 & N4 & N5).
  destruct (good_name_utf8 _ _ GN) as [Un NE].
  pose proof (at_len _ _ A) as L. rewrite !app_length in L. cbn [length bs] in L.
  assert (A1 := A). apply at_adv in A1; [|apply u_one; reflexivity]. change (length (bs "<")) with 1 in A1.
  (* '<' *)
  set (s1 := finish sc (pos sc) StartTagOpen None (pos sc + 1) AfterOpeningStartTag).
  set (p1 := mkP (node_new (pos sc) (length t)) (cur p :: parents p) (end_tag_start p) (end_tag_name p) (pending p)).
  assert (Nx : nth_error t (pos sc + 1) = Some c).
  { eapply at_first. rewrite En in A1. exact A1. }
  assert (R1 : run sc p s1 p1).
  { apply one; cbn [tok finish pos s1]; try discriminate; try lia.
    - apply O_start_tag_open; auto.
      + eapply at_first. exact A.
      + destruct A as [-> _]. rewrite En. cbn [app bs is_prefix]. destruct (N.eqb_spec (N_of_ascii "!") c) as [Q|Q]; auto.
        exfalso. apply N1. rewrite <- Q. reflexivity.
      + rewrite Nx. unfold SLASH; congruence.
      + destruct A1 as [-> _]. rewrite En. cbn [app m_doctype].
        replace (N.eqb c 33) with false by lia. reflexivity.
    - apply A.
    - reflexivity. }
  (* the name *)
  set (rest := render_attrs attrs ++ pad ++ b :: s) in *.
  assert (EXd : exists d rest', rest = d :: rest' /\ stops d).
  { unfold rest. destruct attrs as [|a attrs].
    - cbn. destruct pad as [|d pad].
      + exists b, s. split; auto. unfold stops. destruct HB as [-> | ->]; auto.
      + exists d. eexists. split; [reflexivity|]. left. rewrite blank_ws in BP. apply BP. cbn; auto.
    - inversion GA1 as [|? ? Ga _]; subst. destruct Ga as (B1 & B2 & _).
      destruct (ha_space a) as [|d w] eqn:E; [tauto|]. rewrite blank_ws in B1. exists d.
      eexists. split; [cbn [render_attrs flat_map]; unfold render_attr at 1; rewrite E; reflexivity|].
      left. apply B1. cbn; auto. }
  destruct EXd as (d & rest' & Ed & Sd). rewrite Ed in A1.
  pose proof (at_elem _ _ _ _ A1 GN Sd) as EN. pose proof (at_sub _ _ _ A1) as SB.
  pose proof (at_slice _ _ _ A1 Un) as SL.
  assert (LN : 0 < length name) by (rewrite En; cbn; lia).
  set (s2 := finish (set_space false (set_last_tag (Some (norm name)) (reset s1))) (pos s1) StartTag None
                    (pos s1 + length name) WithinTag).
  set (p2 := upd_cur (set_tag (Some name)) p1).
  assert (R2 : run s1 p1 s2 p2).
  { apply one; cbn [tok finish pos s2]; try discriminate; try lia.
    - unfold s2. rewrite <- SB at 1. change (pos sc + 1) with (pos s1). apply O_start_tag; auto.
    - apply A1.
    - unfold pstep. cbn [tok finish s2]. unfold token_text. cbn [tok_off pos finish s2 s1]. rewrite SL. reflexivity. }
  apply at_adv in A1; auto. rewrite <- Ed in A1. change (pos sc + 1 + length name) with (pos s2) in A1.
  (* the attributes *)
  unfold rest in A1.
  assert (EXe : exists e rest2, pad ++ b :: s = e :: rest2 /\ stops e /\ (e = 47%N -> pad = [] /\ e = b)).
  { destruct pad as [|e pad].
    - exists b, s. split; auto. split; auto. unfold stops. destruct HB as [-> | ->]; auto.
    - exists e. eexists. split; [reflexivity|]. rewrite blank_ws in BP.
      assert (W : is_ws e = true) by (apply BP; cbn; auto). split; [left; auto|]. intros ->. discriminate. }
  destruct EXe as (e & rest2 & Ee & Se & N47). rewrite Ee in A1.
  destruct (attrs_run attrs s2 p2 e rest2) as (s3 & p3 & R3 & I3 & P3 & T3 & Y3 & C3 & Q3); auto.
  { left. auto. }
  { intros Q l a gap v. destruct (N47 Q) as [-> ->]. apply NB; auto. }
  apply at_adv in A1; [|apply attrs_utf8; auto]. rewrite <- Ee, <- P3 in A1.
  destruct (tag_space0 s3 p3 pad (b :: s) I3 A1 BP) as (s4 & R4 & P4 & S4 & T4 & Y4).
  { intros x y E. inversion E. subst x. destruct HB as [-> | ->]; reflexivity. }
  apply at_adv in A1; [|apply blank_utf8; auto]. rewrite <- P4 in A1.
  exists s4, p3. split; [eapply run_trans; eauto; eapply run_trans; eauto; eapply run_trans; eauto|].
  split; [unfold in_tag; rewrite S4; auto|]. split; auto. split.
  { rewrite P4, P3, !app_length. cbn [pos s2 s1 finish length bs]. lia. }
  split; [rewrite T4, T3; auto|]. split.
  { intros H. rewrite Y4, Y3; auto. }
  split; [|rewrite Q3; reflexivity]. rewrite C3. reflexivity.
Qed.

(** ** End tags *)
Lemma same_norm a b : same a b <-> norm a = norm b.
Proof. unfold same, Render.same, ScannerFacts.norm. destruct cs; tauto. Qed.
Lemma end_run sc p name close pad s par ps : content_like t sc -> at_ (pos sc) (end_tag close pad ++ s) ->
  good_name U close -> blank pad -> same close name -> n_tag (cur p) = Some name -> parents p = par :: ps ->
  exists sc1 p1, run sc p sc1 p1 /\ st sc1 = WithinContent /\ pos sc1 = pos sc + length (end_tag close pad) /\
    cur p1 = add_child par (set_end (pos sc1) (set_ets (Some (pos sc)) (set_closed true (cur p)))) /\
    parents p1 = ps /\ tok sc1 = EndTagClose.
Proof.
  intros CL A GN BP SM TG PP. destruct (name_first_byte _ _ GN) as (c & r & En & Wc & N1 & N2 & N3 & N4 & N5).
  destruct (good_name_utf8 _ _ GN) as [Un NE]. unfold end_tag in A. rewrite <- !app_assoc in A.
  pose proof (at_len _ _ A) as L. rewrite !app_length in L. cbn [length bs] in L.
  assert (A1 := A). apply at_adv in A1; [|apply ascii_utf8; reflexivity]. change (length (bs "</")) with 2 in A1.
  set (s1 := finish sc (pos sc) EndTagOpen None (pos sc + 2) AfterOpeningEndTag).
  set (p1 := mkP (cur p) (parents p) (Some (pos sc)) None (pending p)).
  assert (R1 : run sc p s1 p1).
  { apply one; cbn [tok finish pos s1]; try discriminate; try lia.
    - apply O_end_tag_open; auto.
      + eapply at_first. exact A.
      + rewrite (at_nth _ _ _ A). reflexivity.
    - apply A.
    - reflexivity. }
  assert (EXd : exists d rest', pad ++ bs ">" ++ s = d :: rest' /\ stops d).
  { destruct pad as [|d pad].
    - exists 62%N, s. split; auto. unfold stops; auto.
    - exists d. eexists. split; [reflexivity|]. left. rewrite blank_ws in BP. apply BP. cbn; auto. }
  destruct EXd as (d & rest' & Ed & Sd). rewrite Ed in A1.
  pose proof (at_elem _ _ _ _ A1 GN Sd) as EN. pose proof (at_slice _ _ _ A1 Un) as SL.
  assert (LN : 0 < length close) by (rewrite En; cbn; lia).
  set (s2 := finish s1 (pos s1) EndTag None (pos s1 + length close) WithinEndTag).
  set (p2 := mkP (cur p) (parents p) (Some (pos sc)) (Some (norm close)) (pending p)).
  assert (R2 : run s1 p1 s2 p2).
  { apply one; cbn [tok finish pos s2]; try discriminate; try lia.
    - apply O_end_tag; auto.
    - apply A1.
    - unfold pstep. cbn [tok finish s2]. unfold token_text. cbn [tok_off pos finish s2 s1]. rewrite SL. reflexivity. }
  apply at_adv in A1; auto. rewrite <- Ed in A1. change (pos sc + 2 + length close) with (pos s2) in A1.
  assert (EX3 : exists s3, run s2 p2 s3 p2 /\ pos s3 = pos s2 + length pad /\ st s3 = WithinEndTag).
  { destruct pad as [|g pad].
    - exists s2. split; [apply run_nil|]. cbn. auto.
    - pose proof (at_ws _ _ _ A1 BP ltac:(discriminate)) as K.
      specialize (K ltac:(intros x y E; inversion E; reflexivity)).
      exists (finish s2 (pos s2) Whitespace None (pos s2 + length (g :: pad)) WithinEndTag).
      split; [|cbn; auto]. apply one; cbn [tok finish pos length]; try discriminate; try lia.
      + apply O_end_tag_ws2; auto.
      + apply A1.
      + reflexivity. }
  destruct EX3 as (s3 & R3 & P3 & S3). apply at_adv in A1; [|apply blank_utf8; auto]. rewrite <- P3 in A1.
  set (s4 := finish s3 (pos s3) EndTagClose None (pos s3 + 1) WithinContent).
  set (p4 := mkP (add_child par (set_end (pos s3 + 1) (set_ets (Some (pos sc)) (set_closed true (cur p))))) ps
                 (Some (pos sc)) (Some (norm close)) (pending p)).
  assert (R4 : run s3 p2 s4 p4).
  { apply one; cbn [tok finish pos s4]; try discriminate; try lia.
    - apply O_end_tag_close; auto. eapply at_first. exact A1.
    - apply A1.
    - unfold pstep. cbn [tok finish s4 cur parents end_tag_name p2]. rewrite PP. cbn [find_open].
      assert (IS : is_same_tag U cs (cur p) (Some (norm close)) = true).
      { unfold is_same_tag. rewrite TG. apply same_norm in SM. rewrite SM. unfold ScannerFacts.norm. apply beq_refl. }
      rewrite IS. cbn [close_inner bind upd_cur cur parents end_tag_start p2 pop]. unfold pop, upd_cur. cbn [parents p2]. rewrite PP. reflexivity. }
  exists s4, p4. split; [eapply run_trans; eauto; eapply run_trans; eauto; eapply run_trans; eauto|].
  split; auto. split.
  { unfold end_tag. cbn [pos s4 finish]. rewrite P3, !app_length. cbn [pos s2 s1 finish length bs]. lia. }
  split; auto.
Qed.

(** ** Markers in raw content *)
(** A marker whose first byte is the only '<' or whose last byte is its only '>'
    does not straddle the end of the content. *)
Lemma occurs_prefix m s i : is_prefix m (skipn i s) = true -> occurs m s.
Proof.
  intros H. apply is_prefix_spec in H as (r & H). exists (firstn i s), r. rewrite <- H. symmetry. apply firstn_skipn.
Qed.
Lemma prefix_app_split m a b : is_prefix m (a ++ b) = true ->
  is_prefix m a = true \/ (length a < length m /\ forall j, length a <= j -> j < length m -> nth_error m j = nth_error b (j - length a)).
Proof.
  intros H. apply is_prefix_spec in H as (r & H).
  destruct (Nat.le_gt_cases (length m) (length a)) as [L|L].
  - left. apply is_prefix_spec. exists (skipn (length m) a).
    assert (E : firstn (length m) (a ++ b) = m) by (rewrite H, firstn_app, firstn_all, Nat.sub_diag; apply app_nil_r).
    rewrite firstn_app in E. replace (length m - length a) with 0 in E by lia. cbn in E. rewrite app_nil_r in E.
    rewrite <- E at 1. symmetry. apply firstn_skipn.
  - right. split; auto. intros j J1 J2.
    rewrite <- (nth_error_app2 a b J1), H, nth_error_app1 by lia. auto.
Qed.
(** No occurrence of [m] begins in the content [x] when [m] does not occur in it
    and has no '<' after its first byte, and [x] is followed by a '<'. *)
Lemma no_straddle m x s i : ~ occurs m x -> (forall j, 0 < j -> nth_error m j <> Some 60%N) -> i < length x ->
  is_prefix m (skipn i (x ++ 60%N :: s)) = false.
Proof.
  intros N M L. destruct (is_prefix m (skipn i (x ++ 60%N :: s))) eqn:E; auto. exfalso.
  rewrite skipn_app in E. replace (i - length x) with 0 in E by lia. cbn [skipn] in E.
  apply prefix_app_split in E as [E|[E1 E2]].
  - apply N. eapply occurs_prefix; eauto.
  - rewrite skipn_length in *. apply (M (length x - i)); [lia|]. rewrite E2 by lia. rewrite Nat.sub_diag. auto.
Qed.
Lemma no_straddle_comment x s i : ~ occurs (bs "-->") x -> i < length x ->
  is_prefix (bs "-->") (skipn i (x ++ bs "-->" ++ s)) = false.
Proof.
  intros N L. destruct (is_prefix (bs "-->") (skipn i (x ++ bs "-->" ++ s))) eqn:E; auto. exfalso.
  rewrite skipn_app in E. replace (i - length x) with 0 in E by lia. cbn [skipn] in E.
  apply prefix_app_split in E as [E|[E1 E2]].
  - apply N. eapply occurs_prefix; eauto.
  - rewrite skipn_length in *. cbn [length bs] in E1. specialize (E2 2 ltac:(lia) ltac:(cbn; lia)).
    assert (Q : 2 - (length x - i) = 0 \/ 2 - (length x - i) = 1) by lia.
    destruct Q as [Q|Q]; rewrite Q in E2; discriminate.
Qed.
Lemma at_skip p x i : at_ p x -> skipn (p + i) t = skipn i x.
Proof. intros [A _]. rewrite <- A, skipn_skipn. f_equal. lia. Qed.

(** ** Start tags with their '>' *)
Lemma norm_script n : ~ is_raw U cs n -> norm n <> bs "script" /\ norm n <> bs "style".
Proof.
  intros N. split; intros E; apply N; [left|right]; unfold Render.same, ScannerFacts.norm in *; destruct cs; auto.
Qed.
Lemma close_run sc p s par ps : in_tag sc -> at_ (pos sc) (62%N :: s) -> parents p = par :: ps ->
  exists sc1, outcome sc sc1 /\ tok sc1 = StartTagClose /\ tok_off sc1 = pos sc /\ pos sc1 = pos sc + 1 /\
    st sc1 = after_close sc /\
    forall p1, pstep U t cs void sc1 p = Ok p1 -> run sc p sc1 p1.
Proof.
  intros I A PP.
  assert (O : outcome sc (finish (no_attr t (set_st WithinTag sc)) (pos sc) StartTagClose None (pos sc + 1)
                                 (after_close (set_st WithinTag sc)))).
  { eapply O_in_tag.
    - pose proof (at_len _ _ A) as L. cbn in L. lia.
    - apply (enter sc 62%N s I A); [reflexivity|discriminate].
    - apply (TO_close U t true cs (set_st WithinTag sc)). eapply at_first; eauto. }
  eexists. split; [exact O|]. cbn [tok tok_off pos st finish]. repeat (split; [reflexivity|]).
  intros p1 H. apply one; auto; cbn [tok finish pos]; try discriminate; try lia. apply A.
Qed.

Definition plus (n : node) (l : list node) : node := set_children (n_children n ++ l) n.

(** ** One item *)
(** The last token is not the content of a script or style sheet. *)
Definition calm (sc : scanner) : Prop := tok sc <> Script /\ tok sc <> Styles.
Definition item_runs (h : html) : Prop := forall sc p s, good U cs void h -> st sc = WithinContent ->
  at_ (pos sc) (render h ++ s) ->
  ((exists x, h = HText x) -> s = [] \/ exists s', s = 60%N :: s') ->
  exists sc1 p1, run sc p sc1 p1 /\ st sc1 = WithinContent /\ pos sc1 = pos sc + length (render h) /\
    cur p1 = plus (cur p) (nodes_from (pos sc) h) /\ parents p1 = parents p /\ calm sc1.
Definition list_runs (l : list html) : Prop := forall sc p s, Forall (good U cs void) l -> no_split l ->
  st sc = WithinContent -> at_ (pos sc) (render_all l ++ s) -> s = [] \/ (exists s', s = 60%N :: s') ->
  exists sc1 p1, run sc p sc1 p1 /\ st sc1 = WithinContent /\ pos sc1 = pos sc + length (render_all l) /\
    cur p1 = plus (cur p) (nodes_all (pos sc) l) /\ parents p1 = parents p /\ (calm sc -> calm sc1).

Lemma plus_nil n : plus n [] = n.
Proof. destruct n. unfold plus. cbn. rewrite app_nil_r. auto. Qed.
Lemma plus_plus n a b : plus (plus n a) b = plus n (a ++ b).
Proof. unfold plus. cbn. rewrite app_assoc. auto. Qed.

(** Rendered items are UTF-8 and, but for text, begin with '<'. *)
Lemma start_utf8 name attrs pad stop : good_name U name -> good_attrs attrs -> blank pad -> Utf8 stop ->
  Utf8 (start_tag name attrs pad stop).
Proof.
  intros A [B _] C D. unfold start_tag. apply u_app; [apply u_one; reflexivity|].
  apply u_app; [apply (good_name_utf8 U name A)|]. apply u_app; [apply attrs_utf8; auto|].
  apply u_app; auto. apply blank_utf8; auto.
Qed.
Lemma end_utf8 name pad : good_name U name -> blank pad -> Utf8 (end_tag name pad).
Proof.
  intros A C. unfold end_tag. apply u_app; [apply ascii_utf8; reflexivity|].
  apply u_app; [apply (good_name_utf8 U name A)|]. apply u_app; [apply blank_utf8; auto|]. apply u_one. reflexivity.
Qed.
Lemma script_name : good_name U (bs "script").
Proof.
  exists 115%N, (bs "cript"). split; [reflexivity|]. split; [right; right; reflexivity|]. split; [|reflexivity].
  exists (bs "cript"). split; [reflexivity|]. intros c I. cbn in I.
  destruct I as [<-|[<-|[<-|[<-|[<-|[]]]]]]; (split; [reflexivity|left; right; right; reflexivity]).
Qed.
Lemma style_name : good_name U (bs "style").
Proof.
  exists 115%N, (bs "tyle"). split; [reflexivity|]. split; [right; right; reflexivity|]. split; [|reflexivity].
  exists (bs "tyle"). split; [reflexivity|]. intros c I. cbn in I.
  destruct I as [<-|[<-|[<-|[<-|[]]]]]; (split; [reflexivity|left; right; right; reflexivity]).
Qed.
Lemma word_utf8 w : map ascii_lower w = bs "doctype" -> Utf8 w.
Proof.
  intros H. apply ascii_utf8. unfold all_ascii. apply forallb_forall. intros b I.
  apply (in_map ascii_lower) in I. rewrite H in I.
  assert (L : (ascii_lower b < 128)%N).
  { cbn in I. repeat (destruct I as [<-|I]; [reflexivity|]). destruct I. }
  unfold ascii_lower in L. destruct (ascii_upper_letter b) eqn:E; [|lia]. unfold ascii_upper_letter in E. lia.
Qed.
Lemma render_utf8 h : good U cs void h -> Utf8 (render h).
Proof.
  revert h. fix IH 2. intros h G. destruct G as [s [_ [G _]]|s G _|w s W G _|name attrs pad body close pad2 G1 _ _ G2 G3 G4 _ G5 _ G6
    |attrs pad s pad2 _ G1 G2 _ G3 _ _ _ _ G4|attrs pad s pad2 _ G1 G2 G3 _ G4|name attrs pad G1 _ _ G2 G3|name attrs pad G1 G2 G3 _]; cbn [render].
  - exact G.
  - apply u_app; [apply ascii_utf8; reflexivity|]. apply u_app; auto. apply ascii_utf8; reflexivity.
  - apply u_app; [apply ascii_utf8; reflexivity|]. apply u_app; [apply word_utf8; auto|]. apply u_app; auto.
    apply ascii_utf8; reflexivity.
  - apply u_app; [apply start_utf8; auto; apply ascii_utf8; reflexivity|].
    apply u_app; [|apply end_utf8; auto].
    revert body G4. fix IHl 2. intros body G4. destruct G4 as [|h l H1 H2]; [apply u_nil|]. cbn [flat_map].
    apply u_app; [apply IH; exact H1|apply IHl; exact H2].
  - apply u_app; [apply start_utf8; auto; [apply script_name|apply ascii_utf8; reflexivity]|].
    apply u_app; auto. apply end_utf8; auto. apply script_name.
  - apply u_app; [apply start_utf8; auto; [apply style_name|apply ascii_utf8; reflexivity]|].
    apply u_app; auto. apply end_utf8; auto. apply style_name.
  - apply start_utf8; auto. apply ascii_utf8; reflexivity.
  - apply start_utf8; auto. apply ascii_utf8; reflexivity.
Qed.
Lemma render_lt h : good U cs void h -> (exists x, h = HText x) \/ exists r, render h = 60%N :: r.
Proof.
  intros G. destruct G; [left; eauto| | | | | | |]; right; eexists; reflexivity.
Qed.

Lemma list_from_items l : Forall item_runs l -> list_runs l.
Proof.
  induction 1 as [|h l H _ IH]; intros sc p s G NS S A E.
  - exists sc, p. split; [apply run_nil|]. cbn. rewrite plus_nil. auto.
  - inversion G as [|? ? Gh Gl]; subst. cbn [render_all flat_map] in *.
    change (flat_map render l) with (render_all l) in *. rewrite <- app_assoc in A.
    destruct (H sc p (render_all l ++ s) Gh S A) as (s1 & p1 & R1 & S1 & P1 & C1 & Q1 & K1).
    { intros [x ->]. destruct l as [|h2 l]; [auto|]. inversion Gl as [|? ? G2 _]; subst.
      destruct (render_lt _ G2) as [[y ->]|(r & R)]; [destruct NS|].
      right. cbn [render_all flat_map]. rewrite R. eexists. reflexivity. }
    apply at_adv in A; [|apply render_utf8; auto]. rewrite <- P1 in A.
    assert (NS' : no_split l).
    { cbn in NS. destruct h; auto. destruct l as [|h2 l]; auto. destruct h2; auto. destruct NS. }
    destruct (IH s1 p1 s Gl NS' S1 A E) as (s2 & p2 & R2 & S2 & P2 & C2 & Q2 & K2).
    exists s2, p2. split; [eapply run_trans; eauto|]. split; auto. split; [rewrite app_length; lia|].
    split; [|split; [congruence|auto]]. rewrite C2, C1, plus_plus, P1. reflexivity.
Qed.

(** Elements with an end tag, once their start tag and content are read. *)
Lemma after_plain sc name : last_tag sc = Some (norm name) -> ~ is_raw U cs name -> after_close sc = WithinContent.
Proof.
  intros L N. apply norm_script in N as [N1 N2]. unfold after_close. rewrite L. cbn [opt_beq].
  apply beq_neq in N1, N2. rewrite N1, N2. auto.
Qed.
Lemma start_split name attrs pad b s :
  start_tag name attrs pad (b :: s) = bs "<" ++ name ++ render_attrs attrs ++ pad ++ b :: s.
Proof. reflexivity. Qed.
Lemma open_run_tok sc p name attrs pad s : content_like t sc ->
  at_ (pos sc) (start_tag name attrs pad (bs ">") ++ s) ->
  good_name U name -> good_attrs attrs -> blank pad -> ~ In name void ->
  exists sc1 p1, run sc p sc1 p1 /\ pos sc1 = pos sc + length (start_tag name attrs pad (bs ">")) /\
    (~ is_raw U cs name -> st sc1 = WithinContent) /\
    (norm name = bs "script" -> Forall (fun a => ~ same (ha_name a) (bs "type")) attrs -> st sc1 = WithinScriptContent) /\
    (norm name = bs "style" -> st sc1 = WithinStyleContent) /\
    cur p1 = mkNode (Some name) (pos sc) (pos sc1) [] false (Some (pos sc1)) None
               (attrs_from (pos sc + 1 + length name) attrs) /\
    parents p1 = cur p :: parents p /\ tok sc1 = StartTagClose /\ tok_off sc1 + 1 = pos sc1.
Proof.
  intros CL A G1 G2 G3 NV. unfold start_tag in A. rewrite <- !app_assoc in A.
  destruct (start_run sc p name attrs pad 62%N s CL A G1 G2 G3) as (s1 & p1 & R1 & I1 & A1 & P1 & T1 & Y1 & C1 & Q1); auto.
  { discriminate. }
  destruct (close_run s1 p1 s _ _ I1 A1 Q1) as (s2 & O & K1 & K2 & K3 & K4 & K5).
  set (p2 := upd_cur (set_ste (Some (pos s2))) (upd_cur (set_end (pos s2)) p1)).
  assert (PS : pstep U t cs void s2 p1 = Ok p2).
  { unfold pstep. rewrite K1, Q1, K2. replace (0 <? pos s2 - pos s1) with true by lia.
    cbn [upd_cur cur set_end set_ste n_tag]. rewrite C1. cbn [n_tag].
    assert (V : is_void_element name void = false).
    { unfold is_void_element. destruct (existsb (beq name) void) eqn:E; auto. apply existsb_exists in E as (x & X & E).
      apply beq_eq in E. subst x. tauto. }
    rewrite V. unfold p2, upd_cur. cbn. rewrite C1. reflexivity. }
  exists s2, p2. split; [eapply run_trans; eauto|]. split.
  { rewrite K3, P1. unfold start_tag. rewrite !app_length. cbn [length bs]. lia. }
  split; [intros N; rewrite K4; eapply after_plain; eauto|].
  split.
  { intros N F. rewrite K4. unfold after_close. rewrite T1, N, Y1 by auto. reflexivity. }
  split.
  { intros N. rewrite K4. unfold after_close. rewrite T1, N. reflexivity. }
  split; [|split; [exact Q1|split; [exact K1|lia]]]. unfold p2, upd_cur. cbn [cur]. rewrite C1. reflexivity.
Qed.
Lemma open_run sc p name attrs pad s : content_like t sc ->
  at_ (pos sc) (start_tag name attrs pad (bs ">") ++ s) ->
  good_name U name -> good_attrs attrs -> blank pad -> ~ In name void ->
  exists sc1 p1, run sc p sc1 p1 /\ pos sc1 = pos sc + length (start_tag name attrs pad (bs ">")) /\
    (~ is_raw U cs name -> st sc1 = WithinContent) /\
    (norm name = bs "script" -> Forall (fun a => ~ same (ha_name a) (bs "type")) attrs -> st sc1 = WithinScriptContent) /\
    (norm name = bs "style" -> st sc1 = WithinStyleContent) /\
    cur p1 = mkNode (Some name) (pos sc) (pos sc1) [] false (Some (pos sc1)) None
               (attrs_from (pos sc + 1 + length name) attrs) /\
    parents p1 = cur p :: parents p.
Proof.
  intros CL A G1 G2 G3 NV. destruct (open_run_tok sc p name attrs pad s CL A G1 G2 G3 NV) as (sc1 & p1 & R & P & T1 & T2 & T3 & C & Q & _).
  exists sc1, p1. auto 10.
Qed.
End Run.
