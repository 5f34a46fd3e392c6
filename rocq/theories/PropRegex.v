(** * The patterns of the code are read as they are written (C62) *)
From Verif Require Import Base BaseFacts Stream Scanner Folding Links Formatter Completion Hover Regex.
From Coq Require Import ZifyBool ZifyNat ZifyN.

Definition char_text (cs : list N) : Prop := forallb scalar cs = true.
(** What is known of the oracles: a digit is a word character, a word character is not white space. *)
Definition tables_ok (U : unicode) (D : N -> bool) : Prop :=
  (forall c, is_digit D c = true -> is_word U c = true) /\ (forall c, is_word U c = true -> is_uspace c = false).

(** ** Characters and bytes *)
Lemma scalars_cons c cs : char_text (c :: cs) -> scalar c = true /\ char_text cs.
Proof. unfold char_text. cbn [forallb]. intros H. apply andb_prop in H. auto. Qed.
Lemma scalars_app a b : char_text (a ++ b) -> char_text a /\ char_text b.
Proof. unfold char_text. rewrite forallb_app. intros H. apply andb_prop in H. auto. Qed.
Lemma scalars_skip n cs : char_text cs -> char_text (skipn n cs).
Proof. intros H. rewrite <- (firstn_skipn n cs) in H. apply scalars_app in H. tauto. Qed.
Lemma enc_ascii p : all_ascii p = true -> encode p = p.
Proof.
  induction p as [|b p IH]; auto. unfold all_ascii. cbn [forallb]. intros H. apply andb_prop in H as [Hb H].
  rewrite encode_cons, IH by auto. unfold encode1. rewrite Hb. reflexivity.
Qed.
Lemma enc1_small c : (c < 128)%N -> encode1 c = [c].
Proof. intros H. unfold encode1. replace (c <? 128)%N with true by lia. auto. Qed.
Lemma enc1_big c : scalar c = true -> (128 <= c)%N -> exists b r, encode1 c = b :: r /\ (128 <= b)%N /\ Forall (fun x => 128 <= x)%N r.
Proof.
  intros H B. apply encode1_shape in H. inversion H; subst; try lia; unfold is_cont in *; do 2 eexists; (split; [reflexivity|]); split; try lia; repeat constructor; lia.
Qed.
Lemma enc_prefix p : forall cs, all_ascii p = true -> char_text cs -> is_prefix p (encode cs) = is_prefix p cs.
Proof.
  induction p as [|b p IH]; intros [|c cs] A T; auto. unfold all_ascii in A. cbn [forallb] in A. apply andb_prop in A as [Hb A].
  apply scalars_cons in T as [Tc T]. rewrite encode_cons. destruct (N.ltb_spec c 128) as [SM|BG].
  - rewrite enc1_small by auto. cbn [app is_prefix]. rewrite IH by auto. auto.
  - destruct (enc1_big c Tc BG) as (x & r & E & X & _). rewrite E. cbn [app is_prefix]. replace (N.eqb b x) with false by lia. replace (N.eqb b c) with false by lia. auto.
Qed.
Lemma prefix_split p s : is_prefix p s = true -> s = p ++ skipn (length p) s.
Proof. intros H. apply is_prefix_spec in H as (r & ->). rewrite skipn_app, Nat.sub_diag, skipn_all. auto. Qed.
Lemma enc_skip p cs : all_ascii p = true -> is_prefix p cs = true -> skipn (length p) (encode cs) = encode (skipn (length p) cs).
Proof.
  intros A H. apply is_prefix_spec in H as (r & ->). rewrite encode_app, enc_ascii by auto. rewrite !skipn_app, Nat.sub_diag, skipn_all. auto.
Qed.
Lemma take_drop p cs : cs = take_while p cs ++ skipn (length (take_while p cs)) cs.
Proof. induction cs as [|c cs IH]; [cbn; auto|]. cbn [take_while]. destruct (p c); auto. cbn [app length skipn]. f_equal. auto. Qed.
Lemma drop_head p cs : match skipn (length (take_while p cs)) cs with c :: _ => p c = false | [] => True end.
Proof. induction cs as [|c cs IH]; [cbn; auto|]. cbn [take_while]. destruct (p c) eqn:P; auto. Qed.
Lemma enc_drop p cs : char_text cs -> skipn (char_run p (encode cs)) (encode cs) = encode (skipn (length (take_while p cs)) cs).
Proof.
  intros T. rewrite char_run_encode by auto. pose proof (take_drop p cs) as E. set (r := skipn _ _) in *. clearbody r.
  rewrite E at 2. rewrite encode_app, skipn_app, Nat.sub_diag, skipn_all. auto.
Qed.
Lemma take_ext p q cs : (forall c, p c = q c) -> take_while p cs = take_while q cs.
Proof. intros E. induction cs as [|c cs IH]; auto. cbn [take_while]. rewrite E, IH. auto. Qed.

(** ** Searching *)
Section Search.
Variables (U : unicode) (D : N -> bool).
Notation matches := (matches U D).
Notation find_match := (find_match U D).
Notation in_class := (in_class U D).

Lemma seq_class c k b s g : matches (RSeq (RClass c) k) (b, s) g =
  match s with x :: s' => if in_class c x then matches k (x :: b, s') g else [] | [] => [] end.
Proof.
  cbn [Regex.matches fst snd]. destruct s as [|x s]; auto. destruct (in_class c x); auto. cbn [flat_map fst snd]. apply app_nil_r.
Qed.
Lemma seq_nil a z g : matches (RSeq a RNil) z g = matches a z g.
Proof. cbn [Regex.matches]. induction (matches a z g) as [|[y k] l IH]; auto. cbn [flat_map fst snd app]. rewrite IH. auto. Qed.
Lemma seq_assoc a b c z g : matches (RSeq (RSeq a b) c) z g = matches (RSeq a (RSeq b c)) z g.
Proof.
  cbn [Regex.matches]. induction (matches a z g) as [|y l IH]; auto. cbn [flat_map]. rewrite flat_map_app, IH. auto.
Qed.
Lemma seq_begin k b s g : matches (RSeq RBegin k) (b, s) g = match b with [] => matches k (b, s) g | _ => [] end.
Proof. cbn [Regex.matches fst]. destruct b; auto. cbn [flat_map fst snd]. apply app_nil_r. Qed.
Lemma seq_end k b s g : matches (RSeq REnd k) (b, s) g = match s with [] => matches k (b, s) g | _ => [] end.
Proof. cbn [Regex.matches snd]. destruct s; auto. cbn [flat_map fst snd]. apply app_nil_r. Qed.
Lemma seq_bound k b s g : matches (RSeq RBound k) (b, s) g = if xorb (word_at U b) (word_at U s) then matches k (b, s) g else [].
Proof. cbn [Regex.matches fst snd]. destruct (xorb _ _); auto. cbn [flat_map fst snd]. apply app_nil_r. Qed.
Lemma seq_opt_class c k b s g : matches (RSeq (ROpt (RClass c)) k) (b, s) g =
  match s with x :: s' => if in_class c x then matches k (x :: b, s') g else [] | [] => [] end ++ matches k (b, s) g.
Proof.
  cbn [Regex.matches fst snd]. rewrite flat_map_app. cbn [flat_map fst snd]. rewrite app_nil_r. f_equal.
  destruct s as [|x s]; auto. destruct (in_class c x); auto. cbn [flat_map fst snd]. apply app_nil_r.
Qed.

(** Literal text *)
Definition lit (p : str) (k : regex) : regex := fold_right (fun c k => RSeq (RClass (one (CChar c))) k) k p.
Lemma lit_matches p : forall k b s g, matches (lit p k) (b, s) g =
  if is_prefix p s then matches k (rev p ++ b, skipn (length p) s) g else [].
Proof.
  induction p as [|c p IH]; intros k b s g; auto. cbn [lit fold_right]. rewrite seq_class.
  destruct s as [|x s]; auto. cbn [is_prefix length skipn rev]. unfold Regex.in_class, one. cbn [c_neg c_items existsb in_item]. rewrite ?xorb_false_l, ?xorb_true_l. rewrite orb_false_r, N.eqb_sym.
  destruct (c =? x)%N eqn:E; auto. apply N.eqb_eq in E. subst x. cbn [andb]. change (fold_right _ k p) with (lit p k). rewrite IH, <- app_assoc. auto.
Qed.

(** Repetitions *)
Definition after (f : N -> bool) (b s : list N) : place := (rev (take_while f s) ++ b, skipn (length (take_while f s)) s).
Lemma star_head f : forall s b, exists l, star f b s = after f b s :: l.
Proof.
  unfold after. induction s as [|c s IH]; intros b; [exists []; auto|]. cbn [star take_while]. destruct (f c); [|exists []; auto].
  destruct (IH (c :: b)) as (l & ->). cbn [rev length skipn app]. rewrite <- app_assoc. cbn [app]. eauto.
Qed.
(** A repetition followed by what cannot begin with one of its characters. *)
Lemma seq_star_only c k b s g : (forall b x s, in_class c x = true -> matches k (b, x :: s) g = []) ->
  matches (RSeq (RStar c) k) (b, s) g = matches k (after (in_class c) b s) g.
Proof.
  intros F. cbn [Regex.matches fst snd]. revert b. unfold after. induction s as [|x s IH]; intros b.
  - cbn. apply app_nil_r.
  - cbn [star take_while]. destruct (in_class c x) eqn:C.
    + rewrite map_app, flat_map_app. rewrite IH. cbn [map flat_map fst snd rev length skipn]. rewrite (F b x s C). cbn [app]. rewrite app_nil_r, <- app_assoc. auto.
    + cbn. apply app_nil_r.
Qed.
(** A repetition followed by what always matches. *)
Lemma seq_star_total c k b s g y l : matches k (after (in_class c) b s) g = y :: l ->
  exists l', matches (RSeq (RStar c) k) (b, s) g = y :: l'.
Proof.
  intros M. cbn [Regex.matches fst snd]. destruct (star_head (in_class c) s b) as (l0 & ->). cbn [map flat_map fst snd]. rewrite M. cbn [app]. eauto.
Qed.

(** The search from the start of the text, for an anchored pattern. *)
Lemma find_anchored k b s : b <> [] -> find_match (RSeq RBegin k) b s = None.
Proof.
  revert b. induction s as [|c s IH]; intros b NE; cbn [Regex.find_match]; rewrite seq_begin; destruct b; try congruence. apply IH. discriminate.
Qed.
Lemma find_begin k s : find_match (RSeq RBegin k) [] s =
  match matches k ([], s) [] with (y, g) :: _ => Some (([], s), y, g) | [] => None end.
Proof.
  destruct s; cbn [Regex.find_match]; rewrite seq_begin; destruct (matches k _ _) as [|[y g] l]; auto. apply find_anchored. discriminate.
Qed.

Lemma before_app f b s : bytes_before (after f b s) = bytes_before (b, s) + length (encode (take_while f s)).
Proof. unfold bytes_before, after. cbn [fst]. rewrite rev_app_distr, rev_involutive, encode_app, app_length. auto. Qed.
Lemma before_lit p b s s' : all_ascii p = true -> bytes_before (rev p ++ b, s) = bytes_before (b, s') + length p.
Proof. intros A. unfold bytes_before. cbn [fst]. rewrite rev_app_distr, rev_involutive, encode_app, app_length, (enc_ascii p) by auto. auto. Qed.
Lemma before_one c b s s' : bytes_before (c :: b, s) = bytes_before (b, s') + length (encode1 c).
Proof. unfold bytes_before. cbn [fst rev]. rewrite encode_app, app_length. unfold encode at 2. cbn [flat_map]. rewrite app_nil_r. auto. Qed.

(** A matcher that is searched for byte by byte and a pattern that is searched for character by
    character agree when they agree at every character and the matcher begins with ASCII. *)
Definition offset_from (b : list N) (s : list N) (o : option (place * place * groups)) : option (nat * nat) :=
  match o with Some (x, y, _) => Some (bytes_before x - bytes_before (b, s), bytes_before y - bytes_before (b, s)) | None => None end.
Lemma search_chars (at_ : str -> option nat) r :
  (forall x s, (128 <= x)%N -> at_ (x :: s) = None) ->
  (forall b s, char_text s -> match matches r (b, s) [] with
     | (y, _) :: _ => bytes_before (b, s) <= bytes_before y /\ at_ (encode s) = Some (bytes_before y - bytes_before (b, s))
     | [] => at_ (encode s) = None end) ->
  forall s b, char_text s -> search at_ (encode s) = offset_from b s (find_match r b s) /\
    forall x y g, find_match r b s = Some (x, y, g) -> bytes_before (b, s) <= bytes_before x <= bytes_before y.
Proof.
  intros HB HM. induction s as [|c s IH]; intros b T; pose proof (HM b _ T) as M; cbn [Regex.find_match].
  - destruct (matches r (b, []) []) as [|[y k] l].
    + split; [|discriminate]. change (encode []) with (@nil N) in *. cbn [search]. rewrite M. auto.
    + destruct M as [LE M]. split.
      * cbn [offset_from]. rewrite Nat.sub_diag. change (encode []) with (@nil N) in *. cbn [search]. rewrite M. auto.
      * intros ? ? ? X. apply Some_inj in X. injection X as <- <- <-. lia.
  - destruct (matches r (b, c :: s) []) as [|[y k] l].
    + apply scalars_cons in T as [Tc T]. destruct (IH (c :: b) T) as [E O]. pose proof (before_one c b s (c :: s)) as BO.
      assert (X : search at_ (encode (c :: s)) = match search at_ (encode s) with
                   | Some (x, y) => Some (length (encode1 c) + x, length (encode1 c) + y) | None => None end).
      { rewrite encode_cons in *. destruct (N.ltb_spec c 128) as [SM|BG].
        - rewrite enc1_small in * by auto. cbn [app search length]. cbn [app] in M. rewrite M. auto.
        - destruct (enc1_big c Tc BG) as (x & r0 & E1 & X & F). rewrite E1 in *. clear M. cbn [app search length]. rewrite HB by auto. clear E1 BO.
          assert (G : search at_ (r0 ++ encode s) = match search at_ (encode s) with Some (x, y) => Some (length r0 + x, length r0 + y) | None => None end).
          { induction F as [|z r0 Z F IHF]; cbn [app length]; [destruct (search at_ (encode s)) as [[? ?]|]; auto|].
            cbn [search]. rewrite HB by auto. rewrite IHF. destruct (search at_ (encode s)) as [[? ?]|]; auto. }
          rewrite G. destruct (search at_ (encode s)) as [[? ?]|]; auto. }
      rewrite X, E. destruct (find_match r (c :: b) s) as [[[x y] g]|] eqn:FM; cbn [offset_from]; [|split; auto; discriminate].
      specialize (O _ _ _ eq_refl). split.
      * f_equal. f_equal; lia.
      * intros ? ? ? Y. apply Some_inj in Y. injection Y as <- <- <-. lia.
    + destruct M as [LE M]. split.
      * cbn [offset_from]. rewrite Nat.sub_diag. rewrite encode_cons in *. apply scalars_cons in T as [Tc T]. pose proof (encode1_nonempty c Tc).
        destruct (encode1 c ++ encode s) as [|z w] eqn:EE; cbn [search]; rewrite M; auto.
      * intros ? ? ? X. apply Some_inj in X. injection X as <- <- <-. lia.
Qed.

(** ** The scanner, html_scanner.rs:8-14 *)
Lemma find_search pat r at_ s : p_regex pat = Some r -> char_text s ->
  (forall x s, (128 <= x)%N -> at_ (x :: s) = None) ->
  (forall b s, char_text s -> match matches r (b, s) [] with
     | (y, _) :: _ => bytes_before (b, s) <= bytes_before y /\ at_ (encode s) = Some (bytes_before y - bytes_before (b, s))
     | [] => at_ (encode s) = None end) -> search at_ (encode s) = rx_find U D pat (encode s).
Proof.
  intros P T HB HM. unfold rx_find. rewrite P, decode_encode by auto. destruct (search_chars at_ r HB HM s [] T) as [-> _].
  destruct (find_match r [] s) as [[[x y] g]|]; cbn [offset_from]; auto. change (bytes_before ([], s)) with 0. rewrite !Nat.sub_0_r. auto.
Qed.
End Search.

Section Scanner.
Variables (U : unicode) (D : N -> bool).
Notation matches := (matches U D).
Notation find_match := (find_match U D).
Notation in_class := (in_class U D).

(** Literal text in any case *)
Definition cls (ks : list cclass) (k : regex) : regex := fold_right (fun c k => RSeq (RClass c) k) k ks.
Lemma lit_ci l c : ascii_upper_letter l = false -> l <> 107%N -> in_class (literal true l) c = letter_ci l c.
Proof.
  intros UP NK. unfold literal, letter_ci. unfold ascii_alpha. rewrite UP. cbn [orb]. destruct (ascii_lower_letter l) eqn:LO.
  - assert (LL : ascii_lower l = l) by (unfold ascii_lower; rewrite UP; auto). cbv zeta. rewrite LL. replace (N.eqb l 107) with false by lia. unfold ascii_upper. rewrite LO. clear LL.
    unfold ascii_lower_letter, ascii_upper_letter in *. destruct (N.eqb l 115) eqn:S.
    + unfold Regex.in_class. cbn [andb app c_neg c_items existsb in_item]. rewrite ?xorb_false_l, ?xorb_true_l. unfold ascii_lower, ascii_upper_letter. destruct ((65 <=? c) && (c <=? 90))%N eqn:Q; idtac; lia.
    + unfold Regex.in_class. cbn [andb app c_neg c_items existsb in_item]. rewrite ?xorb_false_l, ?xorb_true_l. unfold ascii_lower, ascii_upper_letter. destruct ((65 <=? c) && (c <=? 90))%N eqn:Q; lia.
  - cbn [andb]. unfold Regex.in_class, one. cbn [c_neg c_items existsb in_item]. rewrite ?xorb_false_l, ?xorb_true_l. unfold ascii_lower, ascii_upper_letter, ascii_lower_letter in *.
    destruct ((65 <=? c) && (c <=? 90))%N eqn:Q; lia.
Qed.
Lemma cls_ci p k : forallb (fun l => negb (ascii_upper_letter l) && negb (N.eqb l 107))%N p = true -> forall b s g,
  matches (cls (map (literal true) p) k) (b, s) g =
  if prefix_ci p s then matches k (rev (firstn (length p) s) ++ b, skipn (length p) s) g else [].
Proof.
  induction p as [|l p IH]; intros F b s g; auto. cbn [forallb] in F. apply andb_prop in F as [F1 F]. cbn [map cls fold_right]. rewrite seq_class.
  destruct s as [|c s]; auto. cbn [prefix_ci length firstn skipn rev]. rewrite lit_ci by lia. destruct (letter_ci l c); auto. cbn [andb].
  change (fold_right _ k (map (literal true) p)) with (cls (map (literal true) p) k). rewrite IH by auto. rewrite <- app_assoc. auto.
Qed.
Lemma ci_bytes p : forallb (fun l => (l <? 128) && negb (N.eqb l 115))%N p = true -> forall cs, char_text cs ->
  beq (map ascii_lower (firstn (length p) (encode cs))) p = prefix_ci p cs.
Proof.
  induction p as [|l p IH]; intros F cs T; auto. cbn [forallb] in F. apply andb_prop in F as [F1 F]. destruct cs as [|c cs]; auto.
  apply scalars_cons in T as [Tc T]. rewrite encode_cons. cbn [length prefix_ci]. unfold letter_ci. replace (N.eqb l 115) with false by lia. rewrite andb_false_l, orb_false_r.
  destruct (N.ltb_spec c 128) as [SM|BG].
  - rewrite enc1_small by auto. cbn [app firstn map beq]. rewrite IH by auto. auto.
  - destruct (enc1_big c Tc BG) as (x & r & E & X & _). rewrite E. cbn [app firstn map beq].
    replace (ascii_lower x =? l)%N with false; [replace (ascii_lower c =? l)%N with false; auto|]; unfold ascii_lower, ascii_upper_letter;
      [destruct ((65 <=? c) && (c <=? 90))%N eqn:Q|destruct ((65 <=? x) && (x <=? 90))%N eqn:Q]; lia.
Qed.
Lemma prefix_ci_len p : forallb (fun l => (l <? 128) && negb (N.eqb l 115))%N p = true -> forall cs, prefix_ci p cs = true -> length (encode (firstn (length p) cs)) = length p.
Proof.
  induction p as [|l p IH]; intros F cs P; auto. cbn [forallb] in F. apply andb_prop in F as [F1 F]. destruct cs as [|c cs]; [discriminate|].
  cbn [prefix_ci] in P. apply andb_prop in P as [P1 P]. cbn [length firstn]. rewrite encode_cons, app_length, IH by auto.
  rewrite enc1_small; auto. unfold letter_ci, ascii_lower, ascii_upper_letter in P1. destruct ((65 <=? c) && (c <=? 90))%N eqn:Q; lia.
Qed.
Theorem C62_doctype : forall s, Utf8 s -> m_doctype s = rx_find U D (bs "^!(?i)doctype") s.
Proof.
  intros s (cs & T & ->). unfold rx_find. change (p_regex (bs "^!(?i)doctype")) with (Some (RSeq RBegin (cls (map (literal true) (bs "!doctype")) RNil))).
  cbv match. rewrite decode_encode, find_begin by auto. rewrite cls_ci by reflexivity. cbn [Regex.matches].
  assert (X : m_doctype (encode cs) = if prefix_ci (bs "!doctype") cs then Some (0, 8) else None).
  { unfold m_doctype. destruct cs as [|c cs]; auto. apply scalars_cons in T as [Tc T]. rewrite encode_cons.
    change (prefix_ci (bs "!doctype") (c :: cs)) with (letter_ci 33 c && prefix_ci (bs "doctype") cs).
    destruct (N.ltb_spec c 128) as [SM|BG].
    - rewrite enc1_small by auto. cbn [app]. change 7 with (length (bs "doctype")). rewrite ci_bytes by (try reflexivity; auto).
      replace (letter_ci 33 c) with (c =? 33)%N; auto. unfold letter_ci, ascii_lower, ascii_upper_letter. destruct ((65 <=? c) && (c <=? 90))%N eqn:Q; lia.
    - destruct (enc1_big c Tc BG) as (x & r & E & X & _). rewrite E. cbn [app]. replace (N.eqb x 33) with false by lia.
      replace (letter_ci 33 c) with false; auto. unfold letter_ci, ascii_lower, ascii_upper_letter. destruct ((65 <=? c) && (c <=? 90))%N eqn:Q; lia. }
  rewrite X. destruct (prefix_ci (bs "!doctype") cs) eqn:P; auto. unfold bytes_before. cbn [fst]. rewrite app_nil_r, rev_involutive.
  rewrite prefix_ci_len by (try reflexivity; auto). reflexivity.
Qed.

(** One or more characters of a class at the start. *)
Lemma plus_start c s : char_text s ->
  match find_match (RSeq RBegin (RSeq (RSeq (RClass c) (RStar c)) RNil)) [] s with
  | Some (a, b, _) => Some (bytes_before a, bytes_before b) | None => None end =
  match char_run (in_class c) (encode s) with 0 => None | n => Some (0, n) end.
Proof.
  intros T. rewrite find_begin, seq_nil, seq_class, char_run_encode by auto. destruct s as [|x s]; auto. cbn [take_while]. destruct (in_class c x); auto.
  cbn [Regex.matches fst snd]. destruct (star_head (in_class c) s [x]) as (l & ->). cbn [map]. rewrite before_app, (before_one x [] s s).
  rewrite encode_cons, app_length. change (bytes_before ([], s)) with 0. change (bytes_before ([], x :: s)) with 0.
  apply scalars_cons in T as [Tc _]. pose proof (encode1_nonempty x Tc). destruct (length (encode1 x)); [lia|]. auto.
Qed.
Lemma run_ext p q s : char_text s -> (forall c, p c = q c) -> char_run p (encode s) = char_run q (encode s).
Proof. intros T E. rewrite !char_run_encode by auto. rewrite (take_ext p q); auto. Qed.
Theorem C62_value : forall s, Utf8 s -> m_value s = rx_find U D (bs "^[^\s""'`=<>]+") s.
Proof.
  intros s (cs & T & ->). unfold rx_find. set (c := mkClass true [CSpace; CChar 34; CChar 39; CChar 96; CChar 61; CChar 60; CChar 62]).
  change (p_regex (bs "^[^\s""'`=<>]+")) with (Some (RSeq RBegin (RSeq (RSeq (RClass c) (RStar c)) RNil))). cbv match.
  rewrite decode_encode, plus_start by auto. unfold m_value. erewrite run_ext; [reflexivity|auto|].
  intros x. unfold Regex.in_class, val_char, c. cbn [c_neg c_items existsb in_item]. rewrite ?xorb_false_l, ?xorb_true_l. rewrite orb_false_r, !orb_assoc. auto.
Qed.
Theorem C62_attribute_name : forall s, Utf8 s -> m_attr_name s = rx_find U D (bs "^[^\s""'></=\x00-\x0F\x7F\x80-\x9F]+") s.
Proof.
  intros s (cs & T & ->). unfold rx_find. set (c := mkClass true [CSpace; CChar 34; CChar 39; CChar 62; CChar 60; CChar 47; CChar 61; CRange 0 15; CChar 127; CRange 128 159]).
  change (p_regex (bs "^[^\s""'></=\x00-\x0F\x7F\x80-\x9F]+")) with (Some (RSeq RBegin (RSeq (RSeq (RClass c) (RStar c)) RNil))). cbv match.
  rewrite decode_encode, plus_start by auto. unfold m_attr_name. erewrite run_ext; [reflexivity|auto|].
  intros x. unfold Regex.in_class, attr_char, is_c1, c. cbn [c_neg c_items existsb in_item]. rewrite ?xorb_false_l, ?xorb_true_l. replace (0 <=? x)%N with true by lia. rewrite orb_false_r, !orb_assoc. auto.
Qed.
Theorem C62_element_name : tables_ok U D -> forall s, Utf8 s -> m_element_name U s = rx_find U D (bs "^[_:\w][_:\w\-.\d]*") s.
Proof.
  intros [DW _] s (cs & T & ->). unfold rx_find. set (c := mkClass false [CChar 95; CChar 58; CWord]). set (k := mkClass false [CChar 95; CChar 58; CWord; CChar 45; CChar 46; CDigit]).
  change (p_regex (bs "^[_:\w][_:\w\-.\d]*")) with (Some (RSeq RBegin (RSeq (RClass c) (RSeq (RStar k) RNil)))). cbv match.
  rewrite decode_encode, find_begin, seq_class by auto.
  assert (C : forall x, in_class c x = name_start_char U x).
  { intros x. unfold Regex.in_class, name_start_char, c. cbn [c_neg c_items existsb in_item]. rewrite ?xorb_false_l, ?xorb_true_l. rewrite orb_false_r, !orb_assoc. auto. }
  assert (K : forall x, in_class k x = name_char U x).
  { intros x. unfold Regex.in_class, name_char, name_start_char, k. cbn [c_neg c_items existsb in_item]. rewrite ?xorb_false_l, ?xorb_true_l. specialize (DW x). destruct (is_digit D x); [rewrite DW by auto|]; rewrite ?orb_true_r, ?orb_false_r, ?orb_assoc; auto. }
  unfold m_element_name. destruct cs as [|x cs]; auto. apply scalars_cons in T as [Tc T]. rewrite decode1_encode by auto. rewrite C. destruct (name_start_char U x); auto.
  rewrite seq_nil. cbn [Regex.matches fst snd]. destruct (star_head (in_class k) cs [x]) as (l & ->). cbn [map]. rewrite before_app, (before_one x [] cs cs).
  change (bytes_before ([], cs)) with 0. change (bytes_before ([], x :: cs)) with 0. rewrite encode_cons, skipn_app, skipn_all, Nat.sub_diag. cbn [app skipn].
  rewrite char_run_encode by auto. rewrite (take_ext _ _ _ K). auto.
Qed.

(** Patterns that are searched for *)
Lemma prefix_big p x s : all_ascii p = true -> p <> [] -> (128 <= x)%N -> is_prefix p (x :: s) = false.
Proof.
  intros A NE B. destruct p as [|a p]; [congruence|]. unfold all_ascii in A. cbn [forallb] in A. cbn [is_prefix]. replace (N.eqb a x) with false by lia. auto.
Qed.
Lemma find_str_search p s : find_str p s = match search (fun s => if is_prefix p s then Some (length p) else None) s with Some (a, _) => Some a | None => None end.
Proof.
  induction s as [|c s IH]; cbn [find_str search]; [destruct (is_prefix p []); auto|]. destruct (is_prefix p (c :: s)); auto. rewrite IH.
  destruct (search _ s) as [[? ?]|]; auto.
Qed.
Lemma search_len p : forall s a b, search (fun s => if is_prefix p s then Some (length p) else None) s = Some (a, b) -> b = a + length p.
Proof.
  induction s as [|c s IH]; cbn [search]; intros a b H.
  - destruct (is_prefix p []); [|discriminate]. apply Some_inj in H. injection H as <- <-. auto.
  - destruct (is_prefix p (c :: s)); [apply Some_inj in H; injection H as <- <-; auto|]. destruct (search _ s) as [[x y]|] eqn:E; [|discriminate].
    apply Some_inj in H. injection H as <- <-. rewrite (IH _ _ eq_refl). auto.
Qed.
Theorem C62_style : forall s, Utf8 s -> m_style s = rx_find U D (bs "<\/style") s.
Proof.
  intros s (cs & T & ->). erewrite <- (find_search U D _ _ (fun s => if is_prefix (bs "</style") s then Some 7 else None)); [|reflexivity|auto|..].
  - unfold m_style. rewrite find_str_search. destruct (search _ (encode cs)) as [[a b]|] eqn:E; auto. apply search_len in E as E'. rewrite E'. auto.
  - intros x s X. rewrite prefix_big; auto. discriminate.
  - intros b s Ts. change (RSeq _ _) with (lit (bs "</style") RNil). rewrite lit_matches. rewrite enc_prefix by auto. destruct (is_prefix (bs "</style") s); auto.
    cbn [Regex.matches]. rewrite (before_lit _ b _ s) by auto. change (length (bs "</style")) with 7. split; [lia|f_equal; lia].
Qed.

Lemma opt_step c x k b s g y l : in_class c x = true \/ True ->
  matches k (match s with z :: s' => if in_class c z then (z :: b, s') else (b, s) | [] => (b, s) end) g = y :: l ->
  exists l', matches (RSeq (ROpt (RClass c)) k) (b, s) g = y :: l'.
Proof.
  intros _ M. rewrite seq_opt_class. destruct s as [|z s]; [cbn [app]; eauto|]. destruct (in_class c z); cbn [app]; [rewrite M; cbn [app]; eauto|eauto].
Qed.
Lemma char_class a x : in_class (one (CChar a)) x = N.eqb x a.
Proof. unfold Regex.in_class, one. cbn [c_neg c_items existsb in_item]. rewrite ?xorb_false_l, ?xorb_true_l. apply orb_false_r. Qed.
Definition tail_regex : regex := RSeq (RStar (one CSpace)) (RSeq (ROpt (RClass (one (CChar 47)))) (RSeq (ROpt (RClass (one (CChar 62)))) RNil)).
Lemma space_class x : in_class (one CSpace) x = is_uspace x.
Proof. unfold Regex.in_class, one. cbn [c_neg c_items existsb in_item]. rewrite ?xorb_false_l, ?xorb_true_l. apply orb_false_r. Qed.
Lemma tail_matches b s g : char_text s -> exists y l, matches tail_regex (b, s) g = (y, g) :: l /\ bytes_before y = bytes_before (b, s) + script_tail (encode s).
Proof.
  intros T. pose proof (take_ext _ _ s space_class) as TE.
  set (u := take_while is_uspace s) in *. set (r := skipn (length u) s).
  set (z1 := match r with x :: r' => if N.eqb x 47 then (x :: rev u ++ b, r') else (rev u ++ b, r) | [] => (rev u ++ b, r) end : place).
  set (z2 := match snd z1 with x :: r' => if N.eqb x 62 then (x :: fst z1, r') else z1 | [] => z1 end : place).
  assert (Tr : char_text r) by (apply scalars_skip; auto).
  assert (M : exists l, matches tail_regex (b, s) g = (z2, g) :: l).
  { assert (M2 : exists l, matches (RSeq (ROpt (RClass (one (CChar 62)))) RNil) z1 g = (z2, g) :: l).
    { destruct z1 as [b1 s1] eqn:Z1. eapply (opt_step _ 0%N); [auto|]. cbn [Regex.matches]. subst z2. cbn [fst snd]. destruct s1 as [|x s1]; auto. rewrite char_class. destruct (N.eqb x 62); auto. }
    destruct M2 as (l2 & M2).
    assert (M1 : exists l, matches (RSeq (ROpt (RClass (one (CChar 47)))) (RSeq (ROpt (RClass (one (CChar 62)))) RNil)) (rev u ++ b, r) g = (z2, g) :: l).
    { eapply (opt_step _ 0%N); [auto|]. rewrite <- M2. f_equal. subst z1. destruct r as [|x r']; auto. rewrite char_class. auto. }
    destruct M1 as (l1 & M1). unfold tail_regex. eapply seq_star_total. unfold after. rewrite TE. fold u r. exact M1. }
  destruct M as (l & M). exists z2, l. split; auto. unfold script_tail. rewrite enc_drop by auto. fold u r. rewrite char_run_encode by auto. fold u.
  assert (B1 : bytes_before z1 = bytes_before (b, s) + length (encode u) + (if is_prefix [47%N] (encode r) then 1 else 0) /\
               (if is_prefix [47%N] (encode r) then 1 else 0) + length (encode u) + length (encode (snd z1)) = length (encode s) /\
               skipn (length (encode u) + (if is_prefix [47%N] (encode r) then 1 else 0)) (encode s) = encode (snd z1) /\ char_text (snd z1)).
  { assert (ES : encode s = encode u ++ encode r) by (rewrite <- encode_app; f_equal; apply take_drop).
    assert (BU : bytes_before (rev u ++ b, r) = bytes_before (b, s) + length (encode u)).
    { unfold bytes_before. cbn [fst]. rewrite rev_app_distr, rev_involutive, encode_app, app_length. auto. }
    rewrite ES, app_length. rewrite enc_prefix by auto. subst z1. destruct r as [|x r'].
    - cbn [is_prefix snd]. rewrite BU, !Nat.add_0_r, skipn_app, skipn_all, Nat.sub_diag. repeat split; auto.
    - cbn [is_prefix]. rewrite andb_true_r, (N.eqb_sym 47 x). destruct (N.eqb x 47) eqn:X; cbn [snd].
      + apply N.eqb_eq in X. subst x. rewrite (before_one 47%N (rev u ++ b) r' (47%N :: r')), BU. rewrite encode_cons. rewrite enc1_small by lia.
        apply scalars_cons in Tr as [_ Tr]. rewrite skipn_app. replace (length (encode u) + 1 - length (encode u)) with 1 by lia. rewrite skipn_all2 by lia. cbn [app length skipn].
        repeat split; auto; lia.
      + rewrite BU, !Nat.add_0_r, skipn_app, skipn_all, Nat.sub_diag. repeat split; auto. }
  destruct B1 as (B1 & _ & B2 & B3). rewrite B2. rewrite (enc_prefix [62%N]) by auto. set (kk := if is_prefix [47%N] (encode r) then 1 else 0) in *. clearbody kk. subst z2. destruct z1 as [b1 s1]. cbn [fst snd] in *. destruct s1 as [|x s1].
  - cbn [is_prefix]. rewrite B1. lia.
  - cbn [is_prefix]. rewrite andb_true_r, (N.eqb_sym 62 x). destruct (N.eqb x 62) eqn:X; [|rewrite B1; lia].
    apply N.eqb_eq in X. subst x. rewrite (before_one 62%N b1 s1 (62%N :: s1)), B1, enc1_small by lia. cbn [length]. lia.
Qed.
Theorem C62_script : forall s, Utf8 s -> m_script s = rx_find U D (bs "<!--|-->|<\/?script\s*\/?>?") s.
Proof.
  intros s (cs & T & ->). unfold m_script. eapply find_search; [reflexivity|auto|..].
  - intros x s X. unfold script_at. rewrite !prefix_big; auto; discriminate.
  - intros b s Ts.
    change (matches _ (b, s) []) with (matches (RAlt (lit (bs "<!--") RNil) (RAlt (lit (bs "-->") RNil) (lit (bs "<") (RSeq (ROpt (RClass (one (CChar 47)))) (lit (bs "script") tail_regex))))) (b, s) []).
    change (matches (RAlt ?x (RAlt ?y ?z)) (b, s) []) with (matches x (b, s) [] ++ (matches y (b, s) [] ++ matches z (b, s) [])).
    unfold script_at. rewrite !lit_matches, !enc_prefix by auto.
    destruct (is_prefix (bs "<!--") s) eqn:P1.
    { cbn [Regex.matches app]. rewrite (before_lit _ b _ s) by auto. change (length (bs "<!--")) with 4. split; [lia|f_equal; lia]. }
    destruct (is_prefix (bs "-->") s) eqn:P2.
    { cbn [Regex.matches app]. rewrite (before_lit _ b _ s) by auto. change (length (bs "-->")) with 3. split; [lia|f_equal; lia]. }
    cbn [app]. destruct s as [|x s]; [reflexivity|]. change (is_prefix (bs "<") (x :: s)) with ((60 =? x)%N && true). rewrite andb_true_r.
    destruct (60 =? x)%N eqn:X.
    2:{ change (is_prefix (bs "</script") (x :: s)) with ((60 =? x)%N && is_prefix (bs "/script") s). change (is_prefix (bs "<script") (x :: s)) with ((60 =? x)%N && is_prefix (bs "script") s). rewrite X. auto. }
    apply N.eqb_eq in X. subst x. change (skipn (length (bs "<")) (60%N :: s)) with s. rewrite seq_opt_class, !lit_matches.
    change (is_prefix (bs "</script") (60%N :: s)) with (is_prefix (bs "/script") s). change (is_prefix (bs "<script") (60%N :: s)) with (is_prefix (bs "script") s).
    destruct s as [|y s]; [reflexivity|]. rewrite char_class. change (is_prefix (bs "/script") (y :: s)) with ((47 =? y)%N && is_prefix (bs "script") s). rewrite (N.eqb_sym y 47).
    apply scalars_cons in Ts as [_ Ts]. destruct (47 =? y)%N eqn:Y.
    + apply N.eqb_eq in Y. subst y. cbn [andb]. change (is_prefix (bs "script") (47%N :: s)) with false. cbv match. rewrite app_nil_r, lit_matches.
      destruct (is_prefix (bs "script") s) eqn:P3; auto. apply scalars_cons in Ts as [_ Ts].
      set (b3 := rev (bs "script") ++ 47%N :: rev (bs "<") ++ b).
      destruct (tail_matches b3 (skipn (length (bs "script")) s) [] (scalars_skip _ _ Ts)) as (z & l & -> & B). rewrite B.
      assert (B0 : bytes_before (b3, skipn (length (bs "script")) s) = bytes_before (b, 60%N :: 47%N :: s) + 8).
      { change b3 with (rev (bs "</script") ++ b). rewrite (before_lit _ b _ (60%N :: 47%N :: s)) by auto. auto. }
      rewrite B0. split; [lia|]. change 8 with (length (bs "</script")) at 2. rewrite enc_skip; [|auto|cbn [is_prefix]; exact P3]. f_equal. change (length (bs "</script")) with 8. 
      change (skipn 8 (60%N :: 47%N :: s)) with (skipn 6 s). change (length (bs "script")) with 6. lia.
    + cbn [andb app]. destruct (is_prefix (bs "script") (y :: s)) eqn:P3; auto. set (b3 := rev (bs "script") ++ rev (bs "<") ++ b).
      destruct (tail_matches b3 (skipn (length (bs "script")) (y :: s)) [] (scalars_skip _ _ Ts)) as (z & l & -> & B). rewrite B.
      assert (B0 : bytes_before (b3, skipn (length (bs "script")) (y :: s)) = bytes_before (b, 60%N :: y :: s) + 7).
      { change b3 with (rev (bs "<script") ++ b). rewrite (before_lit _ b _ (60%N :: y :: s)) by auto. auto. }
      rewrite B0. split; [lia|]. change 7 with (length (bs "<script")) at 2. rewrite enc_skip; [|auto|cbn [is_prefix]; exact P3]. f_equal. change (length (bs "<script")) with 7.
      change (skipn 7 (60%N :: y :: s)) with (skipn 6 (y :: s)). change (length (bs "script")) with 6. lia.
Qed.
End Scanner.
Print Assumptions C62_script.

(** ** The services *)
Section Services.
Variables (U : unicode) (D : N -> bool).
Notation matches := (matches U D).
Notation find_match := (find_match U D).
Notation in_class := (in_class U D).

(** There is a match iff there is one somewhere. *)
Lemma found_iff r : forall s b, (exists o, find_match r b s = Some o) <-> exists u v, s = u ++ v /\ matches r (rev u ++ b, v) [] <> [].
Proof.
  induction s as [|c s IH]; intros b; cbn [Regex.find_match].
  - destruct (matches r (b, []) []) as [|[y k] l] eqn:M; split; intros H.
    + destruct H; discriminate.
    + destruct H as (u & v & E & N). symmetry in E. apply app_eq_nil in E as [-> ->]. cbn [rev app] in N. congruence.
    + exists [], []. cbn [rev app]. rewrite M. split; [auto|discriminate].
    + eauto.
  - destruct (matches r (b, c :: s) []) as [|[y k] l] eqn:M.
    + rewrite IH. split; intros (u & v & E & N).
      * exists (c :: u), v. cbn [rev app]. rewrite <- app_assoc. split; [f_equal; auto|auto].
      * destruct u as [|x u]; [cbn [rev app] in *; subst v; congruence|]. injection E as <- E. exists u, v. split; auto. cbn [rev] in N. rewrite <- app_assoc in N. auto.
    + split; intros H; [|eauto]. exists [], (c :: s). cbn [rev app]. rewrite M. split; [auto|discriminate].
Qed.
Lemma is_match_iff pat r s : p_regex pat = Some r -> char_text s ->
  (rx_is_match U D pat (encode s) = true <-> exists u v, s = u ++ v /\ matches r (rev u, v) [] <> []).
Proof.
  intros P T. unfold rx_is_match, rx_find. rewrite P, decode_encode by auto.
  assert (X : (exists u v, s = u ++ v /\ matches r (rev u, v) [] <> []) <-> exists u v, s = u ++ v /\ matches r (rev u ++ [], v) [] <> []).
  { split; intros (u & v & H); exists u, v; rewrite ?app_nil_r in *; auto. }
  rewrite X, <- found_iff. destruct (find_match r [] s) as [[[x y] g]|]; split; eauto; try discriminate. intros (o & Q). discriminate.
Qed.
Lemma bool_iff (a b : bool) : (a = true <-> b = true) -> a = b.
Proof. destruct a, b; intuition congruence. Qed.
Lemma first_that (p : N -> bool) l : existsb p l = true -> exists u c v, l = u ++ c :: v /\ p c = true /\ forallb (fun x => negb (p x)) u = true.
Proof.
  induction l as [|x l IH]; [discriminate|]. cbn [existsb]. destruct (p x) eqn:P; intros H; [exists [], x, l; auto|]. destruct (IH H) as (u & c & v & -> & C & F).
  exists (x :: u), c, v. cbn [forallb]. rewrite P, F. auto.
Qed.
Lemma map_nil {A B} (f : A -> B) l : map f l <> [] <-> l <> [].
Proof. destruct l; cbn; split; congruence. Qed.
Lemma in_star f : forall s b x, In x (star f b s) <-> exists u, s = u ++ snd x /\ fst x = rev u ++ b /\ forallb f u = true.
Proof.
  assert (Z : forall b s : list N, forall x, x = (b, s) <-> (s = [] ++ snd x /\ fst x = rev [] ++ b /\ forallb f [] = true)).
  { intros b s [b' s']. cbn [fst snd app rev forallb]. split; [intros X; injection X as -> ->; auto|intros (-> & -> & _); auto]. }
  induction s as [|c s IH]; intros b x; cbn [star].
  - cbn [In]. split; [intros [<-|[]]; exists []; auto|]. intros (u & E & F & _). symmetry in E. apply app_eq_nil in E as [-> E]. left. symmetry. apply Z. rewrite E. auto.
  - destruct (f c) eqn:FC.
    + rewrite in_app_iff, IH. split.
      * intros [(u & E & F & A)|[<-|[]]].
        -- exists (c :: u). cbn [app rev forallb]. rewrite FC, A, <- app_assoc. split; [f_equal; auto|auto].
        -- exists []. auto.
      * intros (u & E & F & A). destruct u as [|z u].
        -- right. left. symmetry. apply Z. auto.
        -- cbn [app] in E. injection E as <- E. left. exists u. cbn [rev forallb] in *. rewrite <- app_assoc in F. apply andb_prop in A as [_ A]. auto.
    + cbn [In]. split; [intros [<-|[]]; exists []; auto|]. intros (u & E & F & A). destruct u as [|z u].
      * left. symmetry. apply Z. auto.
      * cbn [app] in E. injection E as <- E. cbn [forallb] in A. rewrite FC in A. discriminate.
Qed.
Lemma ne_in {A} (l : list A) : l <> [] <-> exists x, In x l.
Proof. destruct l as [|x l]; split; [congruence|intros (x & []); auto|intros _; exists x; left; auto|discriminate]. Qed.
Lemma seq_ne a b z g : matches (RSeq a b) z g <> [] <-> exists y, In y (matches a z g) /\ matches b (fst y) (snd y) <> [].
Proof.
  cbn [Regex.matches]. rewrite ne_in. setoid_rewrite in_flat_map. split.
  - intros (x & y & I & J). exists y. split; auto. apply ne_in. eauto.
  - intros (y & I & N). apply ne_in in N as (x & N). eauto.
Qed.
Lemma seq_star_ne c k b s g : matches (RSeq (RStar c) k) (b, s) g <> [] <->
  exists u v, s = u ++ v /\ forallb (in_class c) u = true /\ matches k (rev u ++ b, v) g <> [].
Proof.
  rewrite seq_ne. cbn [Regex.matches fst snd]. split.
  - intros (y & I & N). apply in_map_iff in I as (x & <- & I). apply in_star in I as (u & E & F & A). destruct x as [b' s']. cbn [fst snd] in *. subst b'. exists u, s'. auto.
  - intros (u & v & E & A & N). exists ((rev u ++ b, v), g). split; auto. apply in_map_iff. exists (rev u ++ b, v). split; auto. apply in_star. exists u. auto.
Qed.

Ltac read_pattern pat := let r := eval vm_compute in (p_regex (bs pat)) in match r with Some ?x => assert (PAT : p_regex (bs pat) = Some x) by (vm_compute; reflexivity) end.

(** *** html_formatter.rs:65,116 and beautify_html.rs:119 *)
Lemma lt_first_split l : lt_first l = true <-> exists a b, l = a ++ 60%N :: b /\ ~ In 62%N a.
Proof.
  induction l as [|x l IH]; cbn [lt_first].
  - split; [discriminate|]. intros ([|? ?] & b & E & _); discriminate.
  - destruct (N.eqb_spec x 60) as [->|N1]; [split; auto; intros _; exists [], l; auto|].
    destruct (N.eqb_spec x 62) as [->|N2].
    + split; [discriminate|]. intros ([|y a] & b & E & NI); injection E as E1 E2; [congruence|]. exfalso. apply NI. left. auto.
    + rewrite IH. split; intros (a & b & E & NI).
      * exists (x :: a), b. rewrite E. split; auto. intros [X|X]; auto.
      * destruct a as [|y a]; injection E as E1 E2; [congruence|]. exists a, b. split; auto. intros X. apply NI. right. auto.
Qed.
Lemma lt_first_encode cs : char_text cs -> lt_first (rev (encode cs)) = lt_first (rev cs).
Proof.
  induction cs as [|c cs IH] using rev_ind; intros T; auto. apply scalars_app in T as [T Tc]. apply scalars_cons in Tc as [Tc _].
  rewrite encode_app, !rev_app_distr. specialize (IH T). unfold encode at 1. cbn [flat_map]. rewrite app_nil_r. cbn [rev app]. destruct (N.ltb_spec c 128) as [SM|BG].
  - rewrite enc1_small by auto. cbn [rev app lt_first]. rewrite IH. auto.
  - cbn [lt_first]. replace (N.eqb c 60) with false by lia. replace (N.eqb c 62) with false by lia.
    assert (F : Forall (fun x => 128 <= x)%N (rev (encode1 c))).
    { destruct (enc1_big c Tc BG) as (x & r & E & X & F). rewrite E. apply Forall_rev. auto. }
    rewrite <- IH. clear IH. induction F as [|x l X F IHF]; auto. cbn [app lt_first]. replace (N.eqb x 60) with false by lia. replace (N.eqb x 62) with false by lia. auto.
Qed.
Theorem C62_inside_tag : forall s, Utf8 s -> inside_tag s = rx_is_match U D (bs ".*[<][^>]*$") s.
Proof.
  intros s (cs & T & ->). apply bool_iff. read_pattern ".*[<][^>]*$"%string. rewrite (is_match_iff _ _ _ PAT T). unfold inside_tag. rewrite lt_first_encode by auto. rewrite lt_first_split.
  set (gt := mkClass true [CChar 62]).
  assert (GT : forall u, forallb (in_class gt) u = true <-> ~ In 62%N u).
  { intros u. rewrite forallb_forall. unfold Regex.in_class, gt. cbn [c_neg c_items existsb in_item]. split.
    - intros H I. specialize (H _ I). discriminate.
    - intros H x I. rewrite xorb_true_l, orb_false_r. destruct (N.eqb_spec x 62); [subst; contradiction|auto]. }
  split.
  - intros (a & b & E & NI). exists (rev b), (60%N :: rev a).
    assert (EC : cs = rev b ++ 60%N :: rev a). { rewrite <- (rev_involutive cs), E, rev_app_distr. cbn [rev]. rewrite <- app_assoc. auto. }
    split; auto. rewrite seq_star_ne. exists [], (60%N :: rev a). split; auto. split; auto. rewrite seq_class. cbn [rev app].
    change (in_class _ 60%N) with true. cbv match. rewrite seq_star_ne. exists (rev a), []. rewrite app_nil_r. split; auto. split; [apply GT; rewrite <- in_rev; auto|].
    rewrite seq_end. discriminate.
  - intros (u & v & E & N). rewrite seq_star_ne in N. destruct N as (u1 & v1 & E1 & _ & N). rewrite seq_class in N. destruct v1 as [|x v1]; [congruence|].
    destruct (in_class _ x) eqn:C in N; [|congruence]. rewrite seq_star_ne in N. destruct N as (u2 & v2 & E2 & A & N). rewrite seq_end in N. destruct v2; [|congruence].
    rewrite app_nil_r in E2. subst v1. apply (proj1 (GT u2)) in A.
    assert (x = 60%N). { unfold Regex.in_class in C. cbn [c_neg c_items existsb in_item] in C. rewrite xorb_false_l, orb_false_r in C. apply N.eqb_eq. auto. }
    subst x. exists (rev u2), (rev (u ++ u1)). split; [|rewrite <- in_rev; auto]. rewrite E, E1, !rev_app_distr. cbn [rev]. rewrite <- !app_assoc. auto.
Qed.
Theorem C62_trim_left : forall s, Utf8 s -> trim_left s = rx_replace U D (bs "^\s+") [] s.
Proof.
  intros s (cs & T & ->). unfold rx_replace. change (p_regex (bs "^\s+")) with (Some (RSeq RBegin (RSeq (RSeq (RClass (one CSpace)) (RStar (one CSpace))) RNil))). cbv match.
  rewrite decode_encode, find_begin, seq_nil, seq_class by auto. unfold trim_left. rewrite enc_drop by auto. destruct cs as [|x cs]; auto. rewrite space_class. cbn [take_while].
  destruct (is_uspace x) eqn:X; auto. cbn [Regex.matches fst snd]. destruct (star_head (in_class (one CSpace)) cs [x]) as (l & ->). cbn [map].
  unfold after. rewrite (take_ext _ _ cs (space_class U D)). auto.
Qed.
Lemma collapse_spaces : forall s, collapse_chars true s = collapse_chars false (skipn (length (take_while is_uspace s)) s).
Proof. induction s as [|c s IH]; auto. cbn [collapse_chars take_while]. destruct (is_uspace c) eqn:X; auto. cbn [length skipn collapse_chars]. rewrite X. auto. Qed.
Definition spaces_regex : regex := RSeq (RSeq (RClass (one CSpace)) (RStar (one CSpace))) RNil.
Lemma find_spaces : forall s b, exists u, s = u ++ skipn (length u) s /\ forallb (fun c => negb (is_uspace c)) u = true /\
  match skipn (length u) s with
  | [] => find_match spaces_regex b s = None
  | x :: v => is_uspace x = true /\ find_match spaces_regex b s = Some ((rev u ++ b, x :: v), after is_uspace (x :: rev u ++ b) v, [])
  end.
Proof.
  assert (M : forall b s, exists l, matches spaces_regex (b, s) [] = match s with x :: v => if is_uspace x then (after is_uspace (x :: b) v, []) :: l else [] | [] => [] end).
  { intros b s. unfold spaces_regex. rewrite seq_nil, seq_class. destruct s as [|x v]; [exists []; auto|]. rewrite space_class. destruct (is_uspace x); [|exists []; auto].
    cbn [Regex.matches fst snd]. destruct (star_head (in_class (one CSpace)) v (x :: b)) as (l & ->). cbn [map]. unfold after. rewrite (take_ext _ _ v (space_class U D)). eauto. }
  induction s as [|c s IH]; intros b.
  - exists []. cbn. auto.
  - destruct (M b (c :: s)) as (l & E). destruct (is_uspace c) eqn:X.
    + exists []. cbn [length skipn app forallb rev Regex.find_match]. rewrite E. auto.
    + destruct (IH (c :: b)) as (u & E1 & F & W). exists (c :: u). cbn [length skipn app forallb rev Regex.find_match]. rewrite E, X, <- app_assoc. cbn [app].
      split; [f_equal; auto|]. split; [rewrite F; auto|]. exact W.
Qed.
Lemma replace_spaces : forall fuel s b, length s < fuel -> replace_all U D fuel spaces_regex (bs " ") b s = Some (encode (collapse_chars false s)).
Proof.
  assert (CL : forall u v, forallb (fun c => negb (is_uspace c)) u = true -> collapse_chars false (u ++ v) = u ++ collapse_chars false v).
  { induction u as [|c u IH]; intros v F; auto. cbn [forallb] in F. apply andb_prop in F as [F1 F]. cbn [app collapse_chars]. destruct (is_uspace c); [discriminate|]. f_equal. auto. }
  induction fuel as [|n IH]; intros s b L; [lia|]. cbn [replace_all]. destruct (find_spaces s b) as (u & E & F & W). destruct (skipn (length u) s) as [|x v] eqn:V.
  - rewrite W. rewrite app_nil_r in E. rewrite <- (app_nil_r s), E, CL by auto. cbn [collapse_chars]. auto.
  - destruct W as [X ->]. unfold after. cbn [fst snd].
    match goal with |- context [Nat.eqb ?a ?b] => replace (Nat.eqb a b) with false end; [|symmetry; apply Nat.eqb_neq; cbn [length]; repeat rewrite ?app_length, ?rev_length; cbn [length]; repeat rewrite ?app_length, ?rev_length; lia].
    rewrite IH.
    + f_equal. rewrite app_length, rev_length. replace (length u + length b - length b) with (length u) by lia. rewrite E at 1. rewrite firstn_app, Nat.sub_diag, firstn_all, firstn_O, app_nil_r.
      rewrite E at 1. rewrite CL by auto. cbn [collapse_chars]. rewrite X, collapse_spaces, encode_app, encode_cons. auto.
    + pose proof (skipn_length (length (take_while is_uspace v)) v). rewrite E, app_length in L. cbn [length] in L. lia.
Qed.
Theorem C62_collapse : forall s, Utf8 s -> rx_replace_all U D (bs "\s+") (bs " ") s = Some (collapse s).
Proof.
  intros s (cs & T & ->). unfold rx_replace_all. change (p_regex (bs "\s+")) with (Some spaces_regex). cbv match. rewrite decode_encode by auto. rewrite replace_spaces by lia.
  unfold collapse. rewrite decode_encode by auto. auto.
Qed.

(** *** html_links.rs:15-19 *)
Theorem C62_reference : tables_ok U D -> forall s, Utf8 s -> 
  reg_ref U s = rx_is_match U D (bs "\b(\w[\w\d+.-]*:\/\/)?[^\s()<>]+(?:\([\w\d]+\)|([^[:punct:]\s]|\/?))") s.
Proof.
  intros [_ WS] s (cs & T & ->). apply bool_iff. read_pattern "\b(\w[\w\d+.-]*:\/\/)?[^\s()<>]+(?:\([\w\d]+\)|([^[:punct:]\s]|\/?))"%string.
  rewrite (is_match_iff _ _ _ PAT T). clear PAT. unfold reg_ref. rewrite decode_encode by auto. split.
  - intros EX. apply first_that in EX as (u & c & v & -> & W & F). exists u, (c :: v). split; auto.
    assert (A : word_at U (rev u) = false).
    { destruct (rev u) as [|y l] eqn:R; auto. cbn [word_at]. rewrite forallb_forall in F. assert (I : In y u) by (apply in_rev; rewrite R; left; auto). specialize (F y I). destruct (is_word U y); auto. }
    rewrite seq_bound. cbn [word_at]. rewrite A, W. cbn [xorb]. apply seq_ne. exists ((rev u, c :: v), []). split; [cbn [Regex.matches]; apply in_or_app; right; left; auto|]. cbn [fst snd].
    rewrite seq_assoc, seq_class. 
    assert (C : in_class (mkClass true [CSpace; CChar 40; CChar 41; CChar 60; CChar 62]) c = true).
    { unfold Regex.in_class. cbn [c_neg c_items existsb in_item]. rewrite (WS _ W). unfold is_word in W. destruct (c <? 128)%N eqn:SM; [|lia].
      unfold ascii_alnum, ascii_alpha, ascii_upper_letter, ascii_lower_letter, ascii_digit in W. lia. }
    rewrite C. rewrite seq_star_ne. exists [], v. split; auto. split; auto. cbn [rev app].
    apply seq_ne. eexists. split; [|cbn [Regex.matches]; discriminate]. cbn [Regex.matches]. apply in_or_app. right. rewrite in_flat_map. eexists. split; [|left; reflexivity].
    apply in_map_iff. eexists. split; [reflexivity|]. apply in_or_app. right. rewrite in_flat_map. eexists. split; [|left; reflexivity]. apply in_or_app. right. left. reflexivity.
  - intros (u & v & -> & N). apply existsb_exists. rewrite seq_bound in N. destruct (word_at U (rev u)) eqn:A.
    + destruct (rev u) as [|y l] eqn:R; [discriminate|]. exists y. split; auto. apply in_or_app. left. apply in_rev. rewrite R. left. auto.
    + destruct v as [|y v]; cbn [word_at] in *; [cbn [xorb] in N; congruence|]. destruct (is_word U y) eqn:Y; [|cbn [xorb] in N; congruence].
      exists y. split; auto. apply in_or_app. right. left. auto.
Qed.
(** [(^\s*(?i)javascript\:)|([\n\r])] *)
Lemma seq_group_ne n a z g : matches (RSeq (RGroup n a) RNil) z g <> [] <-> matches a z g <> [].
Proof. rewrite seq_nil. cbn [Regex.matches]. apply map_nil. Qed.
Lemma ne_class c k b x s g : matches (RSeq (RClass c) k) (b, x :: s) g <> [] -> in_class c x = true.
Proof. rewrite seq_class. destruct (in_class c x); congruence. Qed.
Lemma encode_in c cs : char_text cs -> (c < 128)%N -> In c (encode cs) <-> In c cs.
Proof.
  intros T SM. induction cs as [|x cs IH]; [tauto|]. apply scalars_cons in T as [Tx T]. rewrite encode_cons, in_app_iff, (IH T). cbn [In].
  destruct (N.ltb_spec x 128) as [S1|BG].
  - rewrite enc1_small by auto. cbn [In]. tauto.
  - destruct (enc1_big x Tx BG) as (y & r & E & Y & F). rewrite E. cbn [In]. rewrite Forall_forall in F. split; intros [H|H]; auto; try (subst; lia).
    destruct H as [H|H]; [subst; lia|]. apply F in H. lia.
Qed.
Theorem C62_javascript : forall s, Utf8 s -> reg_javascript s = rx_is_match U D (bs "(^\s*(?i)javascript\:)|([\n\r])") s.
Proof.
  intros s (cs & T & ->). apply bool_iff. set (br := mkClass false [CChar 10; CChar 13]).
  set (js := cls (map (literal true) (bs "javascript:")) RNil).
  assert (P : p_regex (bs "(^\s*(?i)javascript\:)|([\n\r])") =
    Some (RAlt (RSeq (RGroup 1 (RSeq RBegin (RSeq (RStar (one CSpace)) js))) RNil) (RSeq (RGroup 2 (RSeq (RClass br) RNil)) RNil))) by reflexivity.
  rewrite (is_match_iff _ _ _ P T). clear P.
  assert (M : forall b s, matches (RAlt (RSeq (RGroup 1 (RSeq RBegin (RSeq (RStar (one CSpace)) js))) RNil) (RSeq (RGroup 2 (RSeq (RClass br) RNil)) RNil)) (b, s) [] <> [] <->
    (b = [] /\ prefix_ci (bs "javascript:") (skipn (length (take_while is_uspace s)) s) = true) \/ (exists x v, s = x :: v /\ (x = 10 \/ x = 13)%N)).
  { intros b s. change (matches (RAlt ?x ?y) (b, s) []) with (matches x (b, s) [] ++ matches y (b, s) []).
    assert (A : forall (l1 l2 : list (place * groups)), l1 ++ l2 <> [] <-> l1 <> [] \/ l2 <> []).
    { intros [|? ?] l2; cbn [app]; split; auto; try (intros [H|H]; congruence); try discriminate. intros _. left. discriminate. }
    rewrite A, !seq_group_ne, seq_begin, seq_class. assert (OC : forall P Q R S : Prop, (P <-> Q) -> (R <-> S) -> (P \/ R <-> Q \/ S)) by tauto. apply OC; clear OC.
    - destruct b; [|split; [congruence|intros [? _]; discriminate]]. 
      rewrite seq_star_only.
      + unfold after, js. rewrite cls_ci by reflexivity. rewrite (take_ext _ _ s (space_class U D)). destruct (prefix_ci _ _); cbn [Regex.matches]; split; auto; try discriminate; intuition congruence.
      + intros b x v X. rewrite space_class in X. unfold js. rewrite cls_ci by reflexivity. change (prefix_ci (bs "javascript:") (x :: v)) with (letter_ci 106 x && prefix_ci (bs "avascript:") v).
        replace (letter_ci 106 x) with false; auto. unfold letter_ci, ascii_lower, ascii_upper_letter, is_uspace in *. destruct ((65 <=? x) && (x <=? 90))%N eqn:Q; lia.
    - destruct s as [|x v]; [split; [congruence|intros (? & ? & ? & _); discriminate]|].
      assert (B : in_class br x = true <-> (x = 10 \/ x = 13)%N).
      { unfold Regex.in_class, br. cbn [c_neg c_items existsb in_item]. rewrite xorb_false_l, orb_false_r, orb_true_iff, !N.eqb_eq. tauto. }
      destruct (in_class br x).
      + cbn [Regex.matches]. split; [|discriminate]. intros _. exists x, v. split; auto. apply B. auto.
      + split; [congruence|]. intros (y & w & E & Y). injection E as <- <-. apply B in Y. discriminate. }
  unfold reg_javascript. rewrite enc_drop by auto. rewrite decode_encode by (apply scalars_skip; auto). rewrite orb_true_iff. split.
  - intros [J|H].
    + exists [], cs. split; auto. apply M. auto.
    + unfold has_break in H. apply existsb_exists in H as (x & I & X). assert (SX : (x < 128)%N) by lia. apply (proj1 (encode_in x cs T SX)) in I. apply in_split in I as (u & v & ->). exists u, (x :: v). split; auto.
      apply M. right. exists x, v. split; auto. lia.
  - intros (u & v & -> & N). apply M in N as [[E J]|(x & w & -> & X)].
    + left. assert (u = []) by (rewrite <- (rev_involutive u), E; auto). subst u. auto.
    + right. apply existsb_exists. exists x. assert (SX : (x < 128)%N) by lia. split; [apply (proj2 (encode_in x _ T SX)); apply in_or_app; right; left; auto|lia].
Qed.

(** The scheme of a reference *)
Lemma star_only {A} (h : place -> list A) f : (forall b x s, f x = true -> h (b, x :: s) = []) -> forall s b, flat_map h (star f b s) = h (after f b s).
Proof.
  intros F. unfold after. induction s as [|x s IH]; intros b; [cbn; apply app_nil_r|]. cbn [star take_while]. destruct (f x) eqn:X.
  - rewrite flat_map_app, IH. cbn [flat_map rev length skipn]. rewrite (F b x s X), !app_nil_r, <- app_assoc. auto.
  - cbn. apply app_nil_r.
Qed.
Theorem C62_scheme : tables_ok U D -> forall s, Utf8 s -> reg_schema U s = rx_group U D (bs "^(\w[\w\d+.-]*):") 1 s.
Proof.
  intros [DW _] s (cs & T & ->). set (sc := mkClass false [CWord; CDigit; CChar 43; CChar 46; CChar 45]).
  assert (P : p_regex (bs "^(\w[\w\d+.-]*):") = Some (RSeq RBegin (RSeq (RGroup 1 (RSeq (RClass (one CWord)) (RSeq (RStar sc) RNil))) (RSeq (RClass (one (CChar 58))) RNil)))) by reflexivity.
  unfold rx_group. rewrite P. clear P. rewrite decode_encode, find_begin by auto.
  change (matches (RSeq (RGroup 1 ?a) ?k) ([], cs) []) with (flat_map (fun y => matches k (fst y) (snd y)) (map (fun y => (fst y, (1, (0, length (fst (fst y)))) :: snd y)) (matches a ([], cs) []))).
  rewrite seq_class. unfold reg_schema. destruct cs as [|c cs]; [reflexivity|]. rewrite decode1_encode by (apply scalars_cons in T; tauto).
  assert (W : in_class (one CWord) c = is_word U c). { unfold Regex.in_class, one. cbn [c_neg c_items existsb in_item]. rewrite xorb_false_l. apply orb_false_r. }
  assert (K : forall x, in_class sc x = is_schema_char U x).
  { intros x. unfold Regex.in_class, is_schema_char, sc. cbn [c_neg c_items existsb in_item]. rewrite xorb_false_l. specialize (DW x). destruct (is_word U x); [reflexivity|]. destruct (is_digit D x); [discriminate DW; auto|]. cbn [orb]. rewrite orb_false_r, orb_assoc. auto. }
  rewrite W. destruct (is_word U c) eqn:CW; [|reflexivity]. rewrite seq_nil. cbn [Regex.matches fst snd]. rewrite map_map. cbn [fst snd].
  rewrite flat_map_concat_map, map_map, <- flat_map_concat_map. cbn [fst snd]. rewrite star_only.
  2:{ intros b x v X. cbn [fst snd]. rewrite char_class. rewrite K in X. destruct (N.eqb_spec x 58) as [->|]; auto. unfold is_schema_char in X. cbn in X. discriminate. }
  unfold after. rewrite (take_ext _ _ cs K). cbn [fst snd]. set (u := take_while (is_schema_char U) cs).
  assert (CR : char_run (is_schema_char U) (encode (c :: cs)) = length (encode (c :: u))).
  { rewrite char_run_encode by auto. cbn [take_while]. unfold is_schema_char at 1. rewrite CW. auto. }
  rewrite CR. assert (EC : encode (c :: cs) = encode (c :: u) ++ encode (skipn (length u) cs)) by (rewrite <- encode_app; f_equal; cbn [app]; f_equal; apply take_drop).
  rewrite EC. rewrite nth_error_app2, Nat.sub_diag by lia. rewrite firstn_app, firstn_all, Nat.sub_diag, firstn_O, app_nil_r.
  apply scalars_cons in T as [Tc T]. assert (Tr := scalars_skip (length u) cs T). destruct (skipn (length u) cs) as [|x r] eqn:R; [reflexivity|]. apply scalars_cons in Tr as [Tx _]. rewrite char_class.
  assert (NX : exists y l, encode (x :: r) = y :: l /\ (y =? 58 = (x =? 58))%N).
  { rewrite encode_cons. destruct (N.ltb_spec x 128) as [SM|BG].
    - rewrite enc1_small by auto. cbn [app]. eauto.
    - destruct (enc1_big x Tx BG) as (y & r0 & E & Y & F). rewrite E. cbn [app]. exists y. eexists. split; auto. replace (x =? 58)%N with false by lia. lia. }
  destruct NX as (y & l & -> & Y). cbn [nth_error]. rewrite Y. destruct (x =? 58)%N; [|reflexivity]. cbn [flat_map app snd find fst Nat.eqb]. rewrite Nat.sub_0_r. cbn [skipn].
  rewrite app_length, rev_length. cbn [length]. rewrite Nat.add_1_r. cbn [firstn]. f_equal. f_equal. f_equal. rewrite (take_drop (is_schema_char U) cs). fold u. rewrite firstn_app, Nat.sub_diag, firstn_all, firstn_O, app_nil_r. auto.
Qed.

(** *** html_folding.rs:14 *)
Lemma ends_encode s : char_text s -> word_ends U (encode s) = negb (word_at U s).
Proof. intros T. unfold word_ends. destruct s as [|c s]; auto. rewrite decode1_encode by (apply scalars_cons in T; tauto). auto. Qed.
Definition end_at (s : str) : option nat := if is_prefix (bs "endregion") s && word_ends U (skipn 9 s) then Some 9 else None.
Lemma region_end_search s : region_end U s = match search end_at s with Some _ => true | None => false end.
Proof.
  induction s as [|c s IH]; cbn [region_end search]; unfold end_at at 1; [destruct (is_prefix (bs "endregion") [] && _); auto|].
  destruct (is_prefix (bs "endregion") (c :: s) && _); auto. cbn [orb]. rewrite IH. destruct (search end_at s) as [[? ?]|]; auto.
Qed.
Lemma find_alt k k2 s : find_match (RAlt (RSeq RBegin k) k2) [] s =
  match matches k ([], s) [] with (y, g) :: _ => Some (([], s), y, g) | [] => find_match k2 [] s end.
Proof.
  assert (Z : forall s b, b <> [] -> find_match (RAlt (RSeq RBegin k) k2) b s = find_match k2 b s).
  { induction s0 as [|c s0 IH]; intros b NE; cbn [Regex.find_match]; change (matches (RAlt ?x ?y) ?z []) with (matches x z [] ++ matches y z []);
      rewrite seq_begin; destruct b; try congruence; cbn [app]; auto. rewrite IH by discriminate. auto. }
  destruct s as [|c s]; cbn [Regex.find_match]; change (matches (RAlt ?x ?y) ?z []) with (matches x z [] ++ matches y z []); rewrite seq_begin;
    destruct (matches k _ []) as [|[y g] l]; cbn [app]; auto. rewrite Z by discriminate. auto.
Qed.
Definition region_pattern : str := bs "^\s*#(region\b)|(endregion\b)".
Theorem C62_region : forall s, Utf8 s ->
  region_start U s = (match rx_group U D region_pattern 1 s with Some _ => true | None => false end) /\
  (region_start U s || region_end U s) = rx_is_match U D region_pattern s.
Proof.
  intros s (cs & T & ->). set (k := RSeq (RStar (one CSpace)) (lit (bs "#") (RSeq (RGroup 1 (lit (bs "region") (RSeq RBound RNil))) RNil))).
  set (k2 := RSeq (RGroup 2 (lit (bs "endregion") (RSeq RBound RNil))) RNil).
  assert (P : p_regex region_pattern = Some (RAlt (RSeq RBegin k) k2)) by reflexivity.
  unfold rx_group, rx_is_match, rx_find. rewrite P, decode_encode, find_alt by auto. clear P.
  set (r := skipn (length (take_while is_uspace cs)) cs).
  assert (M1 : matches k ([], cs) [] = if region_start U (encode cs) then
    let b1 := rev (bs "#") ++ rev (take_while is_uspace cs) ++ [] in let z := (rev (bs "region") ++ b1, skipn 7 r) in [(z, [(1, (length b1, length (fst z)))])] else []).
  { unfold k. rewrite seq_star_only.
    2:{ intros b x v X. rewrite lit_matches. rewrite space_class in X. change (is_prefix (bs "#") (x :: v)) with ((35 =? x)%N && true). destruct (N.eqb_spec 35 x) as [<-|]; auto. discriminate X. }
    unfold after. rewrite (take_ext _ _ cs (space_class U D)). fold r. rewrite lit_matches. unfold region_start. rewrite enc_drop by auto. fold r.
    replace (char_run is_uspace (encode cs) + 7) with (7 + char_run is_uspace (encode cs)) by lia. rewrite <- skipn_skipn, enc_drop by auto. fold r.
    assert (Tr : char_text r) by (apply scalars_skip; auto). rewrite enc_prefix by auto.
    destruct r as [|x r']; [reflexivity|]. change (is_prefix (bs "#") (x :: r')) with ((35 =? x)%N && true). change (is_prefix (bs "#region") (x :: r')) with ((35 =? x)%N && is_prefix (bs "region") r').
    rewrite andb_true_r. destruct (N.eqb_spec 35 x) as [<-|]; [|reflexivity]. cbn [andb]. change (skipn (length (bs "#")) (35%N :: r')) with r'.
    rewrite seq_nil. cbn [Regex.matches fst]. rewrite lit_matches. destruct (is_prefix (bs "region") r') eqn:PR; [|reflexivity]. cbn [andb].
    change 7 with (length (bs "#region")). rewrite enc_skip; [|reflexivity|change (is_prefix (bs "#region") (35%N :: r')) with (is_prefix (bs "region") r'); exact PR].
    rewrite ends_encode by (apply scalars_skip; auto). rewrite seq_bound. change (word_at U (rev (bs "region") ++ ?b)) with true. rewrite xorb_true_l.
    change (skipn (length (bs "#region")) (35%N :: r')) with (skipn (length (bs "region")) r'). destruct (word_at U _); reflexivity. }
  rewrite M1.
  assert (M2 : forall b s, char_text s -> match matches k2 (b, s) [] with
     | (y, g) :: _ => (bytes_before (b, s) <= bytes_before y /\ end_at (encode s) = Some (bytes_before y - bytes_before (b, s)))
     | [] => end_at (encode s) = None end).
  { intros b s Ts. unfold k2, end_at. rewrite seq_nil. cbn [Regex.matches fst]. rewrite lit_matches, enc_prefix by auto. destruct (is_prefix (bs "endregion") s) eqn:PE; [|reflexivity]. cbn [andb].
    change 9 with (length (bs "endregion")). rewrite enc_skip by (auto; reflexivity). rewrite ends_encode by (apply scalars_skip; auto). rewrite seq_bound.
    change (word_at U (rev (bs "endregion") ++ b)) with true. rewrite xorb_true_l. destruct (word_at U _); [reflexivity|]. cbn [negb Regex.matches map fst].
    rewrite (before_lit _ b _ s) by reflexivity. change (length (bs "endregion")) with 9. split; [lia|f_equal; lia]. }
  assert (G2 : forall s b x y g, find_match k2 b s = Some (x, y, g) -> exists e, g = [(2, e)]).
  { assert (G : forall b s y g l, matches k2 (b, s) [] = (y, g) :: l -> exists e, g = [(2, e)]).
    { intros b s y g l. unfold k2. rewrite seq_nil. cbn [Regex.matches fst]. rewrite lit_matches. destruct (is_prefix _ s); [|discriminate]. rewrite seq_bound. destruct (xorb _ _); [|discriminate].
      cbn [Regex.matches map fst snd]. intros E. injection E as _ <- _. eauto. }
    induction s as [|c s IH]; intros b x y g; cbn [Regex.find_match]; destruct (matches k2 _ []) as [|[y' g'] l] eqn:M; intros E; try discriminate E;
      first [eapply IH; exact E|apply Some_inj in E; injection E as <- <- <-; eapply G; exact M]. }
  destruct (region_start U (encode cs)) eqn:RS.
  - split; reflexivity.
  - cbn [orb]. split.
    + destruct (find_match k2 [] cs) as [[[x y] g]|] eqn:F; auto. apply G2 in F as (e & ->). reflexivity.
    + rewrite region_end_search.
      assert (HB : forall x s, (128 <= x)%N -> end_at (x :: s) = None) by (intros x s X; unfold end_at; rewrite prefix_big by (auto; discriminate); auto).
      assert (HM : forall b s, char_text s -> match matches k2 (b, s) [] with
         | (y, _) :: _ => bytes_before (b, s) <= bytes_before y /\ end_at (encode s) = Some (bytes_before y - bytes_before (b, s))
         | [] => end_at (encode s) = None end).
      { intros b s Ts. specialize (M2 b s Ts). destruct (matches k2 (b, s) []) as [|[y g] l]; auto. }
      destruct (search_chars U D end_at k2 HB HM cs [] T) as [E _]. rewrite E. destruct (find_match k2 [] cs) as [[[x y] g]|]; auto.
Qed.

(** *** html_completion.rs:30-31, html_hover.rs:27, strings.rs:6: on single characters *)
Lemma one_class_end c x : scalar x = true -> (match find_match (RSeq RBegin (RSeq (RStar c) (RSeq REnd RNil))) [] [x] with Some _ => true | None => false end) = in_class c x.
Proof.
  intros _. rewrite find_begin. cbn [Regex.matches fst snd star]. destruct (in_class c x); reflexivity.
Qed.
Theorem C62_white : forall c, scalar c = true -> white c = rx_is_match U D (bs "^\s*$") (encode1 c).
Proof.
  intros c S. unfold rx_is_match, rx_find. change (p_regex (bs "^\s*$")) with (Some (RSeq RBegin (RSeq (RStar (one CSpace)) (RSeq REnd RNil)))). cbv match.
  assert (E1 : encode1 c = encode [c]) by (unfold encode; cbn [flat_map]; rewrite app_nil_r; auto). rewrite E1.
  rewrite decode_encode by (unfold char_text; cbn [forallb]; rewrite S; auto). pose proof (one_class_end (one CSpace) c S) as X. rewrite space_class in X. unfold white. rewrite <- X.
  destruct (find_match _ [] [c]) as [[[a b] g]|]; auto.
Qed.
Theorem C62_quotes : forall c, scalar c = true -> quote_char c = rx_is_match U D (bs "^[""']*$") (encode1 c).
Proof.
  intros c S. unfold rx_is_match, rx_find. set (q := mkClass false [CChar 34; CChar 39]). change (p_regex (bs "^[""']*$")) with (Some (RSeq RBegin (RSeq (RStar q) (RSeq REnd RNil)))). cbv match.
  assert (E1 : encode1 c = encode [c]) by (unfold encode; cbn [flat_map]; rewrite app_nil_r; auto). rewrite E1.
  rewrite decode_encode by (unfold char_text; cbn [forallb]; rewrite S; auto). pose proof (one_class_end q c S) as X.
  assert (Q : in_class q c = quote_char c). { unfold Regex.in_class, q, quote_char. cbn [c_neg c_items existsb in_item]. rewrite xorb_false_l, orb_false_r. auto. }
  rewrite Q in X. rewrite <- X. destruct (find_match _ [] [c]) as [[[a b] g]|]; auto.
Qed.
Theorem C62_letter_or_digit : forall b, (b < 128)%N -> ascii_alnum b = rx_is_match U D (bs "^[A-Za-z0-9]+$") [b].
Proof.
  intros b S. unfold rx_is_match, rx_find. set (q := mkClass false [CRange 65 90; CRange 97 122; CRange 48 57]).
  change (p_regex (bs "^[A-Za-z0-9]+$")) with (Some (RSeq RBegin (RSeq (RSeq (RClass q) (RStar q)) (RSeq REnd RNil)))). cbv match.
  assert (DC : decode [b] = [b]) by (cbn [decode]; replace (b <? 128)%N with true by lia; auto). rewrite DC, find_begin, seq_assoc, seq_class.
  assert (Q : in_class q b = ascii_alnum b).
  { unfold Regex.in_class, q, ascii_alnum, ascii_alpha, ascii_upper_letter, ascii_lower_letter, ascii_digit. cbn [c_neg c_items existsb in_item]. rewrite xorb_false_l, orb_false_r, orb_assoc. auto. }
  rewrite Q. destruct (ascii_alnum b); reflexivity.
Qed.
Theorem C62_single_quote : forall s, all_ascii s = true -> length s <= 1 -> trim_quotes s = rx_replace U D (bs "['""]") [] s.
Proof.
  intros s A L. unfold rx_replace. set (q := mkClass false [CChar 39; CChar 34]). change (p_regex (bs "['""]")) with (Some (RSeq (RClass q) RNil)). cbv match.
  destruct s as [|b [|b' s]]; cbn [length] in L; try lia; [reflexivity|]. unfold all_ascii in A. cbn [forallb] in A.
  assert (DC : decode [b] = [b]) by (cbn [decode]; replace (b <? 128)%N with true by lia; auto). rewrite DC. cbn [Regex.find_match]. rewrite !seq_class.
  assert (Q : in_class q b = is_quote_byte b). { unfold Regex.in_class, q, is_quote_byte. cbn [c_neg c_items existsb in_item]. rewrite xorb_false_l, orb_false_r. auto. }
  rewrite Q. unfold trim_quotes. destruct (is_quote_byte b); reflexivity.
Qed.
End Services.
Print Assumptions C62_region.

(** ** Examples *)
Lemma demo_tables : tables_ok demo_unicode (fun _ => false).
Proof.
  split; intros c; unfold is_digit, is_word, is_uspace, demo_unicode, ascii_alnum, ascii_alpha, ascii_upper_letter, ascii_lower_letter, ascii_digit; cbn [uni_word]; destruct (c <? 128)%N eqn:S; lia.
Qed.
(** First alternative first; groups; the long s; a boundary. *)
Example C62_demo :
  rx_find demo_unicode (fun _ => false) (bs "a|ab") (bs "xab") = Some (1, 2) /\
  rx_find demo_unicode (fun _ => false) (bs "[a-c]*b?c") (bs "-abcb") = Some (1, 4) /\
  rx_group demo_unicode (fun _ => false) (bs "^(\w[\w\d+.-]*):") 1 (bs "h-2+c://x:y") = Some (bs "h-2+c") /\
  rx_is_match demo_unicode (fun _ => false) (bs "(^\s*(?i)javascript\:)|([\n\r])") (bs " Java" ++ encode [383%N] ++ bs "CRIPT:") = true /\
  rx_group demo_unicode (fun _ => false) region_pattern 1 (bs " #regions #endregion") = None /\
  rx_group demo_unicode (fun _ => false) region_pattern 2 (bs " #regions #endregion") = Some (bs "endregion") /\
  rx_replace_all demo_unicode (fun _ => false) (bs "\s+") (bs " ") (bs "a   b" ++ [10%N; 160%N] ++ bs "c") <> None.
Proof. vm_compute. repeat split; discriminate. Qed.
