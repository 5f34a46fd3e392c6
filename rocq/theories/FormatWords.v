(** * The words of a text, and what the string functions of the formatter do to them. *)
From Verif Require Import Base BaseFacts Formatter FormatFacts Render RenderFacts.
From Coq Require Import ZifyBool ZifyNat ZifyN.

(** The words of a text: the maximal runs of characters other than white space. *)
Definition starts_blank (l : list N) : bool := match l with [] => true | c :: _ => is_uspace c end.
Fixpoint words (l : list N) : list (list N) :=
  match l with
  | [] => []
  | c :: r =>
      if is_uspace c then words r
      else if starts_blank r then [c] :: words r
      else match words r with w :: ws => (c :: w) :: ws | [] => [[c]] end
  end.
Definition spaces (l : list N) : Prop := forallb is_uspace l = true.
Definition solid (l : list N) : Prop := forallb (fun c => negb (is_uspace c)) l = true.

Lemma words_ne l : starts_blank l = false -> exists c r w ws, l = c :: r /\ words l = (c :: w) :: ws.
Proof.
  destruct l as [|c r]; cbn [starts_blank]; [discriminate|]. intros H. exists c, r. cbn [words]. rewrite H.
  destruct (starts_blank r); [eauto|]. destruct (words r); eauto.
Qed.
Lemma words_spaces a b : spaces a -> words (a ++ b) = words b.
Proof.
  unfold spaces. induction a as [|c a IH]; cbn [forallb app words]; auto. intros H.
  apply andb_true_iff in H as [-> H]. auto.
Qed.
Lemma starts_app a b : starts_blank (a ++ b) = match a with [] => starts_blank b | _ => starts_blank a end.
Proof. destruct a; reflexivity. Qed.
Lemma words_sep a c b : is_uspace c = true -> words (a ++ c :: b) = words a ++ words b.
Proof.
  intros C. induction a as [|x a IH]; cbn [app words]; [rewrite C; auto|].
  destruct (is_uspace x); auto. rewrite starts_app. destruct a as [|y a]; [cbn [starts_blank app] in *; rewrite C; cbn [words] in *; rewrite C; auto|].
  destruct (starts_blank (y :: a)) eqn:E; [rewrite IH; auto|]. rewrite IH.
  destruct (words_ne _ E) as (c' & r & w & ws & _ & ->). reflexivity.
Qed.
Lemma words_all_spaces a : spaces a -> words a = [].
Proof. intros H. rewrite <- (app_nil_r a), words_spaces; auto. Qed.
Lemma words_spaces_r a b : spaces b -> words (a ++ b) = words a.
Proof.
  destruct b as [|c b]; [rewrite app_nil_r; auto|]. unfold spaces. cbn [forallb]. intros H.
  apply andb_true_iff in H as [C H]. rewrite words_sep by auto. rewrite (words_all_spaces b) by auto. apply app_nil_r.
Qed.
Lemma words_nil l : words l = [] -> spaces l.
Proof.
  unfold spaces. induction l as [|c l IH]; cbn [words forallb]; auto. destruct (is_uspace c); auto.
  destruct (starts_blank l); [discriminate|]. destruct (words l); discriminate.
Qed.
Lemma words_mid a b c : spaces b -> b <> [] -> words (a ++ b ++ c) = words a ++ words c.
Proof.
  intros B N. destruct b as [|x b]; [congruence|]. unfold spaces in B. cbn [forallb] in B.
  apply andb_true_iff in B as [X B]. cbn [app]. rewrite words_sep, (words_spaces b) by auto. reflexivity.
Qed.
Lemma words_solid w : solid w -> w <> [] -> words w = [w].
Proof.
  unfold solid. induction w as [|c w IH]; [congruence|]. cbn [forallb words]. intros H _.
  apply andb_true_iff in H as [C H]. destruct (is_uspace c); [discriminate|].
  destruct w as [|y w]; [reflexivity|]. rewrite IH by (auto; discriminate). cbn [forallb] in H.
  apply andb_true_iff in H as [Y H]. cbn [starts_blank]. destruct (is_uspace y); [discriminate|reflexivity].
Qed.
(** Peeling off the first character of the first word *)
Lemma words_cons l c w ws : words l = (c :: w) :: ws ->
  exists p r, l = p ++ c :: r /\ spaces p /\ is_uspace c = false /\
    (if starts_blank r then w = [] /\ words r = ws else words r = w :: ws).
Proof.
  induction l as [|x l IH]; cbn [words]; [discriminate|]. destruct (is_uspace x) eqn:X.
  - intros H. destruct (IH H) as (p & r & -> & P & C & K). exists (x :: p), r. split; auto. split; auto.
    unfold spaces. cbn [forallb]. rewrite X. auto.
  - destruct (starts_blank l) eqn:L.
    + intros H. injection H as -> <- <-. exists [], l. rewrite L. split; auto. split; [reflexivity|auto].
    + destruct (words_ne _ L) as (c' & r' & w' & ws' & E & F). rewrite F. intros H. injection H as -> <- <-.
      exists [], l. rewrite L. split; auto. split; [reflexivity|auto].
Qed.
Lemma words_split a : forall s b, words s = words (a ++ b) ->
  exists a' b', s = a' ++ b' /\ words a' = words a /\ words b' = words b.
Proof.
  induction a as [|c a IH]; intros s b H; [exists [], s; auto|].
  cbn [app words] in H. cbn [words]. destruct (is_uspace c) eqn:C; [apply IH; auto|].
  assert (K : exists w ws, words s = (c :: w) :: ws /\
     (if starts_blank (a ++ b) then w = [] /\ words (a ++ b) = ws else words (a ++ b) = w :: ws)).
  { destruct (starts_blank (a ++ b)) eqn:E; [eauto|].
    destruct (words_ne _ E) as (c' & r' & w' & ws' & _ & F). rewrite F in *. eauto. }
  destruct K as (w & ws & K1 & K2). apply words_cons in K1 as (p & r & -> & P & _ & K3).
  assert (R : words r = words (a ++ b) /\ starts_blank r = starts_blank (a ++ b)).
  { destruct (starts_blank r) eqn:E1, (starts_blank (a ++ b)) eqn:E2.
    - destruct K2, K3. split; congruence.
    - destruct K3 as [-> _]. destruct (words_ne _ E2) as (c' & r' & w' & ws' & _ & F). congruence.
    - destruct K2 as [-> _]. destruct (words_ne _ E1) as (c' & r' & w' & ws' & _ & F). congruence.
    - split; congruence. }
  destruct R as [R1 R2]. destruct (IH _ _ R1) as (a' & b' & -> & A & B).
  exists (p ++ c :: a'), b'. split; [rewrite app_assoc_reverse; auto|]. split; auto.
  rewrite words_spaces by auto. cbn [words]. rewrite C, A.
  assert (S : starts_blank a = false -> starts_blank a' = false).
  { intros E. destruct a' as [|x a'].
    - destruct (words_ne _ E) as (c' & r' & w' & ws' & _ & F). cbn in A. congruence.
    - rewrite !starts_app in R2. destruct a as [|y a]; [discriminate|]. cbn [starts_blank] in *. congruence. }
  assert (S2 : starts_blank a = true -> starts_blank a' = true).
  { intros E. destruct a' as [|x a']; auto. destruct a as [|y a].
    - change (words []) with (@nil (list N)) in A. apply words_nil in A. unfold spaces in A. cbn [forallb] in A.
      apply andb_true_iff in A as [A _]. auto.
    - rewrite !starts_app in R2. cbn [starts_blank] in *. congruence. }
  destruct (starts_blank a); [rewrite S2|rewrite S]; auto.
Qed.
(** A text with the one word [w] *)
Lemma words_one s w : solid w -> w <> [] -> words s = [w] -> exists a b, s = a ++ w ++ b /\ spaces a /\ spaces b.
Proof.
  revert s. induction w as [|c w IH]; intros s W N H; [congruence|].
  unfold solid in W. cbn [forallb] in W. apply andb_true_iff in W as [C W].
  apply words_cons in H as (p & r & -> & P & _ & K). destruct (starts_blank r) eqn:E.
  - destruct K as [-> K]. exists p, r. split; auto. split; auto. apply words_nil; auto.
  - destruct w as [|d w].
    { exfalso. destruct (words_ne _ E) as (c' & r' & w' & ws' & _ & F). congruence. }
    destruct (IH r W ltac:(discriminate) K) as (a & b & -> & A & B).
    destruct a as [|x a]; [|exfalso; cbn [app starts_blank] in E; unfold spaces in A; cbn [forallb] in A; rewrite E in A; discriminate].
    exists p, b. auto.
Qed.

(** ** trim, collapse *)
Lemma words_drop l : words (drop_while is_uspace l) = words l.
Proof. induction l as [|c l IH]; cbn [drop_while]; auto. destruct (is_uspace c) eqn:C; cbn [words]; rewrite ?C; auto. Qed.
Lemma words_trim l : words (trim_chars l) = words l.
Proof.
  destruct (trim_chars_split l) as (a & b & E & A & B). rewrite E at 2. rewrite words_spaces, words_spaces_r; auto.
Qed.
Lemma words_collapse l : forall b, words (collapse_chars b l) = words l /\
  (b = false -> starts_blank (collapse_chars b l) = starts_blank l).
Proof.
  induction l as [|c l IH]; intros b; cbn [collapse_chars]; [split; auto|].
  destruct (is_uspace c) eqn:C.
  - cbn [words starts_blank]. rewrite C. destruct b.
    + destruct (IH true) as (I & _). split; auto. discriminate.
    + destruct (IH true) as (I & _). cbn [words starts_blank]. change (is_uspace SP) with true. auto.
  - destruct (IH false) as (I & J). specialize (J eq_refl). cbn [words starts_blank]. rewrite C, J, I. auto.
Qed.

(** ** Strings *)
Definition text_words (s : str) : list (list N) := words (decode s).
Lemma tw_app_white a b c : Utf8 a -> white b -> b <> [] -> text_words (a ++ b ++ c) = text_words a ++ text_words c.
Proof.
  intros A [B1 B2] N. unfold text_words. rewrite !decode_app by auto. apply words_mid.
  - unfold ink in B2. apply words_nil. clear - B2. induction (decode b) as [|x l IH]; auto.
    cbn [filter] in B2. destruct (is_uspace x) eqn:X; [|discriminate]. cbn [words]. rewrite X. auto.
  - intros E. apply N. apply utf8_decode in B1 as [_ B1]. rewrite <- B1, E. reflexivity.
Qed.
Lemma white_spaces s : white s -> spaces (decode s).
Proof.
  intros [_ B2]. unfold ink in B2. unfold spaces. induction (decode s) as [|x l IH]; auto.
  cbn [filter forallb] in *. destruct (is_uspace x); [auto|discriminate].
Qed.
Lemma spaces_white l : spaces l -> forallb scalar l = true -> white (encode l).
Proof.
  intros S H. split; [exists l; auto|]. rewrite ink_encode by auto. apply filter_space. auto.
Qed.
Lemma tw_white_l a b : white a -> text_words (a ++ b) = text_words b.
Proof.
  intros A. unfold text_words. rewrite decode_app by apply A. apply words_spaces. apply white_spaces; auto.
Qed.
Lemma tw_white_r a b : Utf8 a -> white b -> text_words (a ++ b) = text_words a.
Proof.
  intros A B. unfold text_words. rewrite decode_app by auto. apply words_spaces_r. apply white_spaces; auto.
Qed.
Lemma tw_white a : white a -> text_words a = [].
Proof. intros A. apply words_all_spaces. apply white_spaces; auto. Qed.
Lemma tw_nil s : Utf8 s -> text_words s = [] -> white s.
Proof.
  intros H E. split; auto. unfold ink. apply filter_space. apply words_nil. auto.
Qed.
Lemma tw_encode l : forallb scalar l = true -> text_words (encode l) = words l.
Proof. intros H. unfold text_words. rewrite decode_encode; auto. Qed.
Lemma tw_trim s : Utf8 s -> text_words (trim s) = text_words s.
Proof.
  intros H. apply utf8_decode in H as [H1 H2]. unfold trim. rewrite tw_encode.
  - apply words_trim.
  - destruct (trim_chars_split (decode s)) as (a & b & E & _). rewrite E, !forallb_app, !andb_true_iff in H1. tauto.
Qed.
Lemma tw_trim_start s : Utf8 s -> text_words (trim_start s) = text_words s.
Proof.
  intros H. apply utf8_decode in H as [H1 H2]. unfold trim_start, trim_start_chars. rewrite tw_encode.
  - apply words_drop.
  - destruct (drop_while_app is_uspace (decode s)) as (a & E & _). rewrite E, !forallb_app, !andb_true_iff in H1. tauto.
Qed.
Lemma tw_collapse s : Utf8 s -> text_words (collapse s) = text_words s.
Proof.
  intros H. apply utf8_decode in H as [H1 H2]. unfold collapse. rewrite tw_encode.
  - apply words_collapse.
  - apply collapse_chars_scalar. auto.
Qed.
Lemma tw_line s : Utf8 s -> text_words (collapse (trim s)) = text_words s.
Proof. intros H. rewrite tw_collapse, tw_trim by (auto; apply trim_utf8; auto). auto. Qed.

(** ** Lines *)
Lemma tw_join sep l : white sep -> sep <> [] -> Forall Utf8 l -> text_words (join sep l) = flat_map text_words l.
Proof.
  intros W N H. induction l as [|x l IH]; auto. inv H.
  destruct l as [|y l]; [cbn [join flat_map]; rewrite app_nil_r; auto|].
  change (join sep (x :: y :: l)) with (x ++ sep ++ join sep (y :: l)). rewrite tw_app_white by auto.
  cbn [flat_map] in *. rewrite IH; auto.
Qed.
Lemma tw_strip_cr x : Utf8 x -> text_words (strip_cr x) = text_words x.
Proof.
  intros H. unfold strip_cr. destruct (rev x) as [|b r] eqn:E; auto. destruct (N.eqb b CR) eqn:B; auto.
  assert (b = CR) by lia. subst b. apply (f_equal (@rev N)) in E. rewrite rev_involutive in E. cbn [rev] in E.
  subst x. apply utf8_split_at in H as [H _]; [|reflexivity].
  rewrite tw_white_r; auto. apply white_byte; reflexivity.
Qed.
Lemma tw_lines s : Utf8 s -> flat_map text_words (lines s) = text_words s.
Proof.
  intros H. unfold lines. pose proof (split_utf8 s H) as S. rewrite <- (split_join s) at 2.
  rewrite tw_join by (auto using white_lf; discriminate). clear H. induction (split_lf s) as [|x l IH]; auto. inv S.
  destruct l as [|y l]; [destruct x; reflexivity|].
  change (lines_of (x :: y :: l)) with (strip_cr x :: lines_of (y :: l)). cbn [flat_map] in *.
  rewrite IH, tw_strip_cr; auto.
Qed.
Lemma tw_text_lines o level count ends ls : forall i p, Forall Utf8 ls ->
  text_words (text_lines o level count ends i p ls) = flat_map text_words ls.
Proof.
  induction ls as [|l ls IH]; intros i p H; cbn [text_lines flat_map]; auto. inv H.
  pose proof (line_utf8 _ H2) as [L1 _]. pose proof (tw_line _ H2) as L2. pose proof (white_indent o level) as W.
  set (x := collapse (trim l)) in *. destruct (0 <? length x) eqn:Z.
  - rewrite tw_white_l by apply white_lf. rewrite tw_white_l by auto. rewrite <- L2.
    assert (E : forall p, text_lines o level count ends (S i) p ls = [] \/
       exists r, text_lines o level count ends (S i) p ls = [LF] ++ r).
    { clear. revert i. induction ls as [|l ls IH]; intros i p; cbn [text_lines]; auto.
      destruct (0 <? _); [right; eauto|]. destruct (_ && _); [right; eauto|]. apply IH. }
    destruct (text_lines_ink o level count ends ls (S i) 0 H3) as [I1 _]. specialize (IH (S i) 0 H3).
    destruct (E 0) as [R | (r & R)].
    + rewrite R in *. rewrite <- IH, !app_nil_r. reflexivity.
    + rewrite R in *. rewrite tw_app_white by (auto using white_lf; discriminate).
      rewrite tw_white_l in IH by apply white_lf. rewrite IH. auto.
  - assert (E : text_words l = []) by (rewrite <- L2; destruct x; [auto|discriminate]). rewrite E, app_nil_l.
    destruct (_ && _) eqn:Q.
    + rewrite tw_white_l by apply white_lf. rewrite tw_white_l; auto.
      destruct (indent_empty_lines o); auto using white_nil.
    + apply IH; auto.
Qed.
Lemma tw_beautify_text o level s : Utf8 s -> text_words (beautify_text o s level) = text_words s.
Proof.
  intros H. unfold beautify_text. destruct (contains_byte LF s); [|apply tw_line; auto].
  rewrite tw_text_lines by (apply lines_ink; auto). apply tw_lines; auto.
Qed.

(** ** Cutting a text laid out anew where the original was cut *)
Lemma tw_split s a b : Utf8 s -> Utf8 a -> Utf8 b -> text_words s = text_words (a ++ b) ->
  exists a' b', s = a' ++ b' /\ Utf8 a' /\ Utf8 b' /\ text_words a' = text_words a /\ text_words b' = text_words b.
Proof.
  intros S A B H. unfold text_words in H. rewrite decode_app in H by auto.
  apply words_split in H as (a' & b' & E & HA & HB). pose proof (utf8_decode _ S) as [S1 S2].
  rewrite E, forallb_app, andb_true_iff in S1. destruct S1 as [SA SB].
  exists (encode a'), (encode b'). split; [rewrite <- encode_app, <- E; auto|].
  split; [exists a'; auto|]. split; [exists b'; auto|]. rewrite !tw_encode by auto. auto.
Qed.
Definition mark (m : str) : Prop := m <> [] /\ forallb (fun b => (b <? 128)%N && negb (is_uspace b)) m = true.
Lemma mark_ascii m : mark m -> all_ascii m = true /\ solid m.
Proof.
  intros [_ H]. unfold all_ascii, solid. split; rewrite forallb_forall in *; intros x X; specialize (H x X); lia.
Qed.
Lemma mark_utf8 m : mark m -> Utf8 m.
Proof. intros H. apply ascii_utf8, (proj1 (mark_ascii m H)). Qed.
Lemma tw_mark m : mark m -> text_words m = [m].
Proof.
  intros H. unfold text_words. pose proof (mark_ascii _ H) as [A S]. rewrite ascii_dec by auto.
  apply words_solid; [auto|apply H].
Qed.
Lemma encode_ascii l : all_ascii l = true -> encode l = l.
Proof.
  intros H. destruct (utf8_decode l (ascii_utf8 l H)) as [_ E]. rewrite ascii_dec in E; auto.
Qed.
Lemma tw_split_mark s m b : Utf8 s -> mark m -> Utf8 b -> text_words s = text_words (m ++ b) ->
  exists w w' b', s = w ++ m ++ w' ++ b' /\ white w /\ white w' /\ Utf8 b' /\ text_words b' = text_words b.
Proof.
  intros S M B H. apply tw_split in H as (m' & b' & -> & M1 & B1 & M2 & B2); auto using mark_utf8.
  rewrite (tw_mark m M) in M2. unfold text_words in M2. pose proof (mark_ascii _ M) as [A So].
  apply words_one in M2 as (x & y & E & X & Y); auto; [|apply M].
  pose proof (utf8_decode _ M1) as [S1 S2]. rewrite E, !forallb_app, !andb_true_iff in S1. destruct S1 as (SX & _ & SY).
  exists (encode x), (encode y), b'. split.
  - rewrite <- S2, E, !encode_app, (encode_ascii m), !app_assoc_reverse by auto. reflexivity.
  - split; [apply spaces_white; auto|]. split; [apply spaces_white; auto|]. auto.
Qed.
Lemma utf8_around m : mark m -> forall a b, Utf8 (a ++ m ++ b) -> Utf8 a /\ Utf8 b.
Proof.
  intros [N H] a b U. destruct m as [|x m]; [congruence|]. cbn [forallb app] in *. apply andb_true_iff in H as [X H].
  apply utf8_split_at in U as [U1 U2]; [|lia]. split; auto. clear N X U1. revert U2. induction m as [|y m IH]; auto.
  cbn [forallb app] in *. apply andb_true_iff in H as [Y H]. intros U.
  apply (utf8_split_at []) in U as [_ U]; [auto|lia].
Qed.
Lemma tw_occurs m s s' : mark m -> Utf8 s -> Utf8 s' -> text_words s' = text_words s -> occurs m s -> occurs m s'.
Proof.
  intros M S S' H (a & b & ->). destruct (utf8_around _ M _ _ S) as [A B].
  apply tw_split in H as (a' & r & -> & A1 & R1 & A2 & R2); auto; [|apply utf8_app; auto using mark_utf8].
  apply tw_split_mark in R2 as (w & w' & b' & -> & _); auto.
  exists (a' ++ w), (w' ++ b'). rewrite app_assoc_reverse. reflexivity.
Qed.
Lemma tw_byte b s s' : (b < 128)%N -> is_uspace b = false -> Utf8 s -> Utf8 s' ->
  text_words s' = text_words s -> In b s -> In b s'.
Proof.
  intros B W S S' H I. apply in_split in I as (x & y & E).
  destruct (tw_occurs [b] s s') as (x' & y' & E'); auto.
  - split; [discriminate|]. cbn [forallb]. rewrite W. lia.
  - exists x, y. exact E.
  - rewrite E'. apply in_or_app. right. left. reflexivity.
Qed.
