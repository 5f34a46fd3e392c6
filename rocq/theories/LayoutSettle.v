(** * Formatting what the formatter wrote *)
From Verif Require Import Base Stream Scanner BaseFacts ScannerFacts ScanProps ScanLocal Tree Parser ParseSpec ParseOrder
  Formatter FormatFacts FormatWords Render RenderFacts PropRender PropFormat Layout LayoutTree.
From Coq Require Import ZifyBool ZifyNat ZifyN Permutation.

(** ** A line without superfluous white space is determined by its words *)
Definition ln (s : str) : str := collapse (trim s).
Fixpoint joinsp (l : list (list N)) : list N :=
  match l with [] => [] | [w] => w | w :: r => w ++ SP :: joinsp r end.
Definition rtrim (l : list N) : list N := rev (drop_while is_uspace (rev l)).
Lemma rtrim_cons c l : rtrim (c :: l) = if is_uspace c && (match rtrim l with [] => true | _ => false end) then [] else c :: rtrim l.
Proof.
  unfold rtrim. cbn [rev]. generalize (rev l). clear l. intros l.
  assert (H : drop_while is_uspace (l ++ [c]) = match drop_while is_uspace l with [] => if is_uspace c then [] else [c] | x => x ++ [c] end).
  { induction l as [|x l IH]; cbn [app drop_while]; [destruct (is_uspace c); auto|]. destruct (is_uspace x); auto. }
  rewrite H. destruct (drop_while is_uspace l) as [|y m] eqn:E.
  - destruct (is_uspace c); reflexivity.
  - rewrite rev_app_distr. cbn [rev app]. destruct (rev m ++ [y]) eqn:Q; [destruct (rev m); discriminate|]. rewrite andb_false_r. reflexivity.
Qed.
Lemma rtrim_nil l : rtrim l = [] -> words l = [].
Proof.
  induction l as [|c l IH]; auto. rewrite rtrim_cons. cbn [words]. destruct (is_uspace c); cbn [andb]; [|discriminate].
  destruct (rtrim l); [auto|discriminate].
Qed.
Lemma collapse_space c m : is_uspace c = true ->
  collapse_chars true (c :: m) = collapse_chars true m /\ collapse_chars false (c :: m) = SP :: collapse_chars true m.
Proof. intros H. cbn [collapse_chars]. rewrite H. auto. Qed.
Lemma collapse_words l : collapse_chars true (rtrim l) = joinsp (words l) /\
  collapse_chars false (rtrim l) = (if starts_blank l then match words l with [] => [] | _ => SP :: joinsp (words l) end else joinsp (words l)).
Proof.
  induction l as [|c l [I1 I2]]; [split; reflexivity|]. rewrite rtrim_cons. cbn [words starts_blank].
  destruct (is_uspace c) eqn:C; cbn [andb].
  - destruct (rtrim l) as [|x m] eqn:R.
    + rewrite (rtrim_nil l R). split; reflexivity.
    + destruct (collapse_space c (x :: m) C) as [-> ->]. split; [auto|].
      destruct (words l) as [|w ws] eqn:W.
      * exfalso. apply words_nil in W. clear - W R. revert x m R. induction l as [|c l IH]; intros x m R; [discriminate|].
        rewrite rtrim_cons in R. unfold spaces in W. cbn [forallb] in W. apply andb_true_iff in W as [W1 W2]. rewrite W1 in R. cbn [andb] in R.
        destruct (rtrim l) eqn:E; [discriminate|]. eapply IH; eauto.
      * rewrite I1. reflexivity.
  - cbn [collapse_chars]. rewrite C, I2. split.
    + destruct (starts_blank l) eqn:S.
      * destruct (words l) as [|w ws]; reflexivity.
      * destruct (words_ne l S) as (c' & r & w & ws & -> & W). rewrite W. destruct ws; reflexivity.
    + destruct (starts_blank l) eqn:S.
      * destruct (words l) as [|w ws]; reflexivity.
      * destruct (words_ne l S) as (c' & r & w & ws & -> & W). rewrite W. destruct ws; reflexivity.
Qed.
Lemma trim_words l : collapse_chars false (trim_chars l) = joinsp (words l).
Proof.
  change (trim_chars l) with (rtrim (drop_while is_uspace l)). destruct (collapse_words (drop_while is_uspace l)) as [_ H].
  rewrite H, words_drop. destruct (starts_blank (drop_while is_uspace l)) eqn:S; auto.
  assert (E : drop_while is_uspace l = []).
  { clear H. induction l as [|c l IH]; auto. cbn [drop_while] in *. destruct (is_uspace c) eqn:C; auto. cbn in S. congruence. }
  rewrite <- words_drop, E. reflexivity.
Qed.
Lemma ln_words s : Utf8 s -> ln s = encode (joinsp (text_words s)).
Proof.
  intros H. apply utf8_decode in H as [H1 H2]. unfold ln, collapse, trim, text_words. rewrite decode_encode.
  - rewrite trim_words. reflexivity.
  - destruct (trim_chars_split (decode s)) as (a & b & E & _). rewrite E, !forallb_app, !andb_true_iff in H1. tauto.
Qed.
Lemma ln_same a b : Utf8 a -> Utf8 b -> text_words a = text_words b -> ln a = ln b.
Proof. intros A B E. rewrite !ln_words by auto. rewrite E. reflexivity. Qed.
Lemma ln_utf8 s : Utf8 s -> Utf8 (ln s).
Proof. intros H. apply line_utf8. auto. Qed.
Lemma ln_ln s : Utf8 s -> ln (ln s) = ln s.
Proof. intros H. apply ln_same; auto using ln_utf8. apply tw_line. auto. Qed.
Lemma ln_nil s : Utf8 s -> (ln s = [] <-> text_words s = []).
Proof.
  intros H. split; intros E; [|rewrite ln_words, E by auto; reflexivity].
  rewrite <- tw_line by auto. change (collapse (trim s)) with (ln s). rewrite E. reflexivity.
Qed.
Lemma trim_nil s : Utf8 s -> (0 <? length (trim s)) = match text_words s with [] => false | _ => true end.
Proof.
  intros H. destruct (text_words s) eqn:E.
  - assert (T : trim s = []); [|rewrite T; reflexivity]. unfold trim. unfold text_words in E. apply words_nil in E.
    assert (D : forall l, spaces l -> drop_while is_uspace l = []).
    { induction l as [|c l IH]; auto. unfold spaces. cbn [forallb drop_while]. intros Q. apply andb_true_iff in Q as [-> Q]. auto. }
    unfold trim_chars. rewrite (D (decode s)) by auto. reflexivity.
  - destruct (trim s) as [|b r] eqn:T; [|reflexivity]. rewrite <- tw_trim, T in E by auto. discriminate.
Qed.
(** No line feed, and not longer. *)
Lemma encode_no_lf l : ~ In LF l -> forallb scalar l = true -> ~ In LF (encode l).
Proof.
  intros N S I. assert (Us : Utf8 (encode l)) by (exists l; auto). apply in_split in I as (a & b & E).
  assert (D : decode (encode l) = decode a ++ LF :: decode b).
  { rewrite E in *. destruct (utf8_split_at a LF b ltac:(reflexivity) Us) as [A B].
    rewrite decode_app by auto. reflexivity. }
  rewrite decode_encode in D by auto. apply N. rewrite D. apply in_or_app. right. left. auto.
Qed.
Lemma collapse_no_lf l : forall b, ~ In LF (collapse_chars b l).
Proof.
  induction l as [|c l IH]; intros b; [intros []|]. cbn [collapse_chars]. destruct (is_uspace c) eqn:C.
  - destruct b; auto. intros [H|H]; [discriminate|]. eapply IH; eauto.
  - intros [H|H]; [subst c; discriminate|]. eapply IH; eauto.
Qed.
Lemma ln_no_lf s : Utf8 s -> ~ In LF (ln s).
Proof.
  intros H. unfold ln. pose proof (proj1 (trim_utf8 s H)) as T. apply utf8_decode in T as [T _].
  unfold collapse. apply encode_no_lf; [apply collapse_no_lf|]. apply collapse_chars_scalar. auto.
Qed.
Lemma encode1_len c : 1 <= length (encode1 c).
Proof. unfold encode1. repeat (destruct (_ <? _)%N); cbn; lia. Qed.
Lemma collapse_len l : forall b, length (encode (collapse_chars b l)) <= length (encode l).
Proof.
  induction l as [|c l IH]; intros b; [reflexivity|]. unfold encode in *. cbn [collapse_chars flat_map]. rewrite app_length.
  pose proof (encode1_len c). destruct (is_uspace c).
  - destruct b; [specialize (IH true); lia|]. cbn [flat_map]. rewrite app_length. specialize (IH true).
    change (length (encode1 SP)) with 1. lia.
  - cbn [flat_map]. rewrite app_length. specialize (IH false). lia.
Qed.
Lemma ln_len s : Utf8 s -> length (ln s) <= length s.
Proof.
  intros H. pose proof (proj1 (trim_utf8 s H)) as T. unfold ln, collapse. etransitivity; [apply collapse_len|].
  apply utf8_decode in T as [_ T]. rewrite T. apply utf8_decode in H as [_ H]. unfold trim.
  destruct (trim_chars_split (decode s)) as (a & b & E & _). rewrite <- H at 2. rewrite E at 2. rewrite !encode_app, !app_length. lia.
Qed.

(** ** The lines the formatter writes *)
Section Settle.
Variable o : format_options.
Definition wr (level : nat) (x : str) : str :=
  match x with [] => if indent_empty_lines o then get_indent o level else [] | _ => get_indent o level ++ x end.
Definition chunks (level : nat) (l : list str) : str := flat_map (fun x => LF :: wr level x) l.
Fixpoint kept (count : nat) (ends : bool) (i pc : nat) (ls : list str) : list str :=
  match ls with
  | [] => []
  | l :: r =>
      match ln l with
      | [] => if negb (i =? 0) && (negb (i =? count - 1) || ends) && keep_empty_line o pc
              then [] :: kept count ends (S i) (S pc) r
              else kept count ends (S i) (if i =? 0 then pc else S pc) r
      | x => x :: kept count ends (S i) 0 r
      end
  end.
Lemma text_chunks level count ends ls : forall i pc, text_lines o level count ends i pc ls = chunks level (kept count ends i pc ls).
Proof.
  induction ls as [|l r IH]; intros i pc; auto. cbn [text_lines kept]. cbv zeta. change (collapse (trim l)) with (ln l).
  destruct (ln l) as [|b x] eqn:E; cbn [length Nat.ltb Nat.leb].
  - destruct (_ && _); [|auto]. cbn [chunks flat_map wr]. rewrite IH. reflexivity.
  - cbn [chunks flat_map wr]. rewrite IH. cbn [app]. rewrite ?app_assoc_reverse. reflexivity.
Qed.
(** No run of empty lines is longer than the options allow. *)
Fixpoint bounded (pc : nat) (l : list str) : Prop :=
  match l with [] => True | [] :: r => keep_empty_line o pc = true /\ bounded (S pc) r | _ :: r => bounded 0 r end.
Lemma keep_less a b : a <= b -> keep_empty_line o b = true -> keep_empty_line o a = true.
Proof.
  unfold keep_empty_line. destruct (preserve_new_lines o); cbn [andb]; auto. destruct (max_preserve_new_lines o); auto. lia.
Qed.
Lemma kept_bounded count ends ls : forall i pc pc', pc' <= pc -> bounded pc' (kept count ends i pc ls).
Proof.
  induction ls as [|l r IH]; intros i pc pc' L; [exact I|]. cbn [kept]. destruct (ln l) as [|b x].
  - destruct (_ && _) eqn:K.
    + cbn [bounded]. apply andb_true_iff in K as [_ K]. split; [eapply keep_less; eauto|]. apply IH. lia.
    + apply IH. destruct (i =? 0); lia.
  - cbn [bounded]. apply IH. lia.
Qed.
Definition normal (x : str) : Prop := Utf8 x /\ ln x = x.
Lemma normal_no_lf x : normal x -> ~ In LF x.
Proof. intros [A B]. rewrite <- B. apply ln_no_lf. auto. Qed.
Lemma normal_nil : normal [].
Proof. split; [apply utf8_nil|reflexivity]. Qed.
Lemma normal_ln s : Utf8 s -> normal (ln s).
Proof. intros H. split; [apply ln_utf8; auto|apply ln_ln; auto]. Qed.
Lemma kept_normal count ends ls : Forall Utf8 ls -> forall i pc, Forall normal (kept count ends i pc ls).
Proof.
  induction 1 as [|l r U F IH]; intros i pc; [constructor|]. cbn [kept]. pose proof (normal_ln l U) as N. destruct (ln l) as [|b x].
  - destruct (_ && _); auto.
  - auto.
Qed.
Definition nlf (s : str) : Prop := ~ In LF s.
Lemma indent_no_lf level : nlf (get_indent o level).
Proof. intros I. unfold get_indent, rep in I. destruct (insert_spaces o); apply repeat_spec in I; discriminate. Qed.
Lemma wr_no_lf level x : normal x -> nlf (wr level x).
Proof.
  intros N I. apply normal_no_lf in N. unfold wr in I. destruct x as [|b x].
  - destruct (indent_empty_lines o); [apply (indent_no_lf level); auto|destruct I].
  - apply in_app_or in I as [I|I]; [apply (indent_no_lf level); auto|auto].
Qed.
Lemma wr_utf8 level x : normal x -> Utf8 (wr level x).
Proof.
  intros [N _]. unfold wr. destruct x as [|b x]; [destruct (indent_empty_lines o); [apply white_indent|apply utf8_nil]|].
  apply utf8_app; auto. apply white_indent.
Qed.
Lemma wr_ln level x : normal x -> ln (wr level x) = x.
Proof.
  intros N. destruct N as [N1 N2]. rewrite <- N2 at 2. apply ln_same; auto; [apply wr_utf8; split; auto|].
  unfold wr. destruct x as [|b x].
  - destruct (indent_empty_lines o); auto. rewrite (tw_white (get_indent o level)) by apply white_indent. reflexivity.
  - apply tw_white_l. apply white_indent.
Qed.
Lemma strip_ln x : Utf8 x -> ln (strip_cr x) = ln x.
Proof. intros H. apply ln_same; auto; [apply strip_cr_utf8; auto|apply tw_strip_cr; auto]. Qed.

Lemma split_no_lf s : nlf s -> split_lf s = [s].
Proof.
  induction s as [|b s IH]; intros H; auto. cbn [split_lf]. destruct (N.eqb b LF) eqn:B.
  - exfalso. apply H. left. lia.
  - rewrite IH; auto. intros I. apply H. right. auto.
Qed.
Lemma split_mid a b : nlf a -> split_lf (a ++ LF :: b) = a :: split_lf b.
Proof.
  induction a as [|x a IH]; intros H; auto. cbn [app split_lf]. destruct (N.eqb x LF) eqn:B.
  - exfalso. apply H. left. lia.
  - rewrite IH; auto. intros I. apply H. right. auto.
Qed.
Lemma split_chunks level k l : Forall normal l -> nlf k -> forall w, nlf w ->
  split_lf (w ++ chunks level l ++ LF :: k) = w :: map (wr level) l ++ [k].
Proof.
  intros F K. induction F as [|x l N F IH]; intros w W; cbn [chunks flat_map map app].
  - rewrite split_mid by auto. rewrite split_no_lf by auto. reflexivity.
  - rewrite app_assoc_reverse. rewrite split_mid by auto. f_equal. apply IH. apply wr_no_lf. auto.
Qed.
Lemma lines_chunks level k l : Forall normal l -> nlf k ->
  lines (chunks level l ++ LF :: k) = [] :: map (fun x => strip_cr (wr level x)) l ++ match k with [] => [] | _ => [k] end.
Proof.
  intros F K. unfold lines. pose proof (split_chunks level k l F K [] ltac:(intros [])) as S. cbn [app] in S. rewrite S.
  assert (X : forall m, lines_of (m ++ [k]) = map strip_cr m ++ match k with [] => [] | _ => [k] end).
  { induction m as [|y m IH]; [reflexivity|]. cbn [app map]. rewrite <- IH. cbn [lines_of]. destruct (m ++ [k]) eqn:E; [destruct m; discriminate|].
    reflexivity. }
  change ([] :: map (wr level) l ++ [k]) with (([] :: map (wr level) l) ++ [k]). rewrite X. cbn [map]. rewrite map_map. reflexivity.
Qed.
Lemma ends_chunks a k : nlf k -> ends_lf (a ++ LF :: k) = match k with [] => true | _ => false end.
Proof.
  intros K. unfold ends_lf. destruct k as [|x k] using rev_ind; [rewrite rev_app_distr; reflexivity|].
  change (LF :: k ++ [x]) with ((LF :: k) ++ [x]). rewrite app_assoc, rev_app_distr. cbn [rev app].
  destruct (N.eqb x LF) eqn:B; [exfalso; apply K; apply in_or_app; right; left; lia|]. destruct k; reflexivity.
Qed.
Lemma kept_again level k l : Forall normal l -> white k -> forall i pc c ends, 0 < i -> bounded pc l ->
  (match k with [] => ends = true | _ => c = i + length l + 1 end) ->
  kept c ends i pc (map (fun x => strip_cr (wr level x)) l ++ match k with [] => [] | _ => [k] end) = l \/
  (exists b r, k = b :: r /\ ends = true).
Proof.
  intros F W. induction F as [|x l N F IH]; intros i pc c ends I B E.
  - destruct k as [|b k]; [left; reflexivity|]. destruct ends; [right; eauto|]. left. cbn [map app kept].
    assert (L : ln (b :: k) = []) by (apply ln_nil; [apply W|apply tw_white; auto]). rewrite L.
    cbn [length] in E. replace (i =? c - 1) with true by lia. cbn [negb orb]. rewrite andb_false_r. reflexivity.
  - cbn [map app kept]. rewrite strip_ln, wr_ln by (auto using wr_utf8). destruct x as [|b x].
    + cbn [bounded] in B. destruct B as [B1 B2]. rewrite B1, andb_true_r. replace (i =? 0) with false by lia. cbn [negb andb].
      assert (K : negb (i =? c - 1) || ends = true).
      { destruct k as [|b k]; [rewrite E; apply orb_true_r|]. cbn [length] in E. replace (i =? c - 1) with false by lia. reflexivity. }
      rewrite K. destruct (IH (S i) (S pc) c ends) as [R|R]; [lia|auto|destruct k; [auto|cbn [length] in E; lia]| |auto].
      left. rewrite R. reflexivity.
    + cbn [bounded] in B. destruct (IH (S i) 0 c ends) as [R|R]; [lia|auto|destruct k; [auto|cbn [length] in E; lia]| |auto].
      left. rewrite R. reflexivity.
Qed.
Lemma contains_mid a b : contains_byte LF (a ++ LF :: b) = true.
Proof. unfold contains_byte. apply existsb_exists. exists LF. split; [apply in_or_app; right; left; auto|apply N.eqb_refl]. Qed.
(** What was written, with a line feed and an indent behind it, is written again. *)
Lemma bt_chunks level k l : Forall normal l -> bounded 0 l -> white k -> nlf k ->
  beautify_text o (chunks level l ++ [LF] ++ k) level = chunks level l.
Proof.
  intros F B W K. cbn [app]. unfold beautify_text. rewrite contains_mid, lines_chunks, ends_chunks, text_chunks by auto. f_equal.
  cbn [kept length]. change (ln []) with (@nil N). cbn [Nat.eqb negb andb].
  destruct (kept_again level k l F W 1 0 (S (length (map (fun x => strip_cr (wr level x)) l ++ match k with [] => [] | _ => [k] end)))
     (match k with [] => true | _ => false end)) as [R|(b & r & -> & R)]; [lia|auto| | |discriminate].
  - destruct k; [auto|]. rewrite app_length, map_length. cbn [length]. lia.
  - exact R.
Qed.
Lemma bt_lines level s : Utf8 s -> contains_byte LF s = true ->
  exists l, beautify_text o s level = chunks level l /\ Forall normal l /\ bounded 0 l.
Proof.
  intros U C. unfold beautify_text. rewrite C, text_chunks. eexists. split; [reflexivity|].
  split; [apply kept_normal; apply lines_ink; auto|apply kept_bounded; auto].
Qed.
Definition calm (s : str) : Prop := contains_byte LF s = true \/ white s.
Lemma bt_again level k s : Utf8 s -> calm s -> white k -> nlf k ->
  beautify_text o (beautify_text o s level ++ [LF] ++ k) level = beautify_text o s level.
Proof.
  intros U C W K. destruct (contains_byte LF s) eqn:E.
  - destruct (bt_lines level s U E) as (l & -> & F & B). apply bt_chunks; auto.
  - destruct C as [C|C]; [congruence|].
    assert (T : beautify_text o s level = []).
    { unfold beautify_text. rewrite E. apply (ln_nil s U). apply tw_white. auto. }
    rewrite T. apply (bt_chunks level k []); auto. exact I.
Qed.

(** ** Elements without children *)
Definition blanks (l : list str) : Prop := Forall (fun x => x = []) l.
Lemma chunks_app level a b : chunks level (a ++ b) = chunks level a ++ chunks level b.
Proof. apply flat_map_app. Qed.
Lemma chunks_white level l : blanks l -> white (chunks level l).
Proof.
  induction 1 as [|x l -> F IH]; [apply white_nil|]. cbn [chunks flat_map wr].
  change (LF :: ?a) with ([LF] ++ a). rewrite app_assoc_reverse. apply white_app; [apply white_lf|]. apply white_app; [|apply IH].
  destruct (indent_empty_lines o); [apply white_indent|apply white_nil].
Qed.
Lemma chunks_utf8 level l : Forall normal l -> Utf8 (chunks level l).
Proof.
  induction 1 as [|x l N F IH]; [apply utf8_nil|]. cbn [chunks flat_map]. apply (utf8_app [LF]); [apply white_lf|].
  apply utf8_app; [apply wr_utf8; auto|apply IH].
Qed.
Lemma normal_words x : normal x -> x <> [] -> text_words x <> [].
Proof. intros [A B] N E. apply N. rewrite <- B. apply ln_nil; auto. Qed.
Lemma chunks_words level x l : normal x -> x <> [] -> Forall normal l -> text_words (chunks level (x :: l)) <> [].
Proof.
  intros A B F. cbn [chunks flat_map]. change (LF :: ?a) with ([LF] ++ a). rewrite app_assoc_reverse, tw_white_l by apply white_lf.
  destruct x as [|b x]; [congruence|]. cbn [wr]. rewrite app_assoc_reverse, tw_white_l by apply white_indent.
  intros E. apply tw_nil in E; [|apply utf8_app; [apply A|apply chunks_utf8; auto]].
  destruct E as [E1 E2]. rewrite ink_app in E2 by apply A. apply app_eq_nil in E2 as [E2 _].
  apply (normal_words (b :: x) A B). apply tw_white. split; [apply A|auto].
Qed.
Lemma trim_start_body s v : body s v -> trim_start s = v.
Proof.
  intros (w & -> & [W1 W2] & V & N). unfold trim_start, trim_start_chars. rewrite decode_app by auto. unfold ink in W2.
  apply utf8_decode in V as [_ V]. rewrite <- V at 2. f_equal. revert W2 N. generalize (decode w), (decode v). clear.
  induction l as [|c l IH]; intros m W N; cbn [app drop_while].
  - destruct m as [|c m]; auto. cbn [drop_while]. rewrite (N c m eq_refl). auto.
  - cbn [filter] in W. destruct (is_uspace c); [cbn [negb] in W; auto|discriminate].
Qed.
Lemma normal_start x c r : normal x -> decode x = c :: r -> is_uspace c = false.
Proof.
  intros [A B] D. rewrite <- B in D. rewrite ln_words in D by auto.
  assert (S : exists ws, text_words x = ws /\ forallb scalar (joinsp ws) = true).
  { eexists. split; [reflexivity|]. unfold text_words; rewrite <- trim_words. apply collapse_chars_scalar. apply utf8_decode in A as [A _].
    destruct (trim_chars_split (decode x)) as (a & b & E & _). rewrite E, !forallb_app, !andb_true_iff in A. tauto. }
  destruct S as (ws & W & S). rewrite W in D. rewrite decode_encode in D by auto. unfold text_words in W.
  destruct ws as [|w ws]; [discriminate|]. destruct w as [|c' w].
  - exfalso. clear - W. generalize dependent ws. induction (decode x) as [|y l IH]; intros ws W; cbn [words] in W; [discriminate|].
    destruct (is_uspace y); [eapply IH; eauto|]. destruct (starts_blank l); [discriminate|]. destruct (words l); discriminate.
  - apply words_cons in W as (p & q & _ & _ & C & _). destruct ws; cbn [joinsp app] in D; inversion D; subst; auto.
Qed.
Lemma trim_chunks level x l : normal x -> x <> [] -> Forall normal l -> forall b, blanks b ->
  trim_start (chunks level (b ++ x :: l)) = x ++ chunks level l.
Proof.
  intros A N F b B. apply trim_start_body. exists (chunks level b ++ [LF] ++ get_indent o level).
  split; [|split; [|split]].
  - rewrite chunks_app. cbn [chunks flat_map]. destruct x as [|c x]; [congruence|]. cbn [wr]. cbn [app]. rewrite ?app_assoc_reverse. cbn [app]. rewrite ?app_assoc_reverse. reflexivity.
  - apply white_app; [apply chunks_white; auto|]. apply white_app; [apply white_lf|apply white_indent].
  - apply utf8_app; [apply A|apply chunks_utf8; auto].
  - intros c r D. rewrite decode_app in D by apply A. destruct (decode x) as [|c' r'] eqn:Q.
    + exfalso. apply N. destruct A as [A _]. apply utf8_decode in A as [_ A]. rewrite <- A, Q. reflexivity.
    + cbn [app] in D. inversion D; subst. eapply normal_start; eauto.
Qed.
Lemma blanks_or l : blanks l \/ exists b x r, l = b ++ x :: r /\ blanks b /\ x <> [].
Proof.
  induction l as [|y l IH]; [left; constructor|]. destruct y as [|c y].
  - destruct IH as [IH|(b & x & r & -> & B & X)]; [left; constructor; auto|]. right. exists ([] :: b), x, r. split; [auto|]. split; [constructor; auto|auto].
  - right. exists [], (c :: y), l. split; [auto|]. split; [constructor|discriminate].
Qed.
(** The lines of an element without children that goes over several lines *)
Definition leafy (l : list str) : Prop :=
  Forall normal l /\ bounded 0 l /\ (blanks l \/ exists x r, l = x :: r /\ x <> []).
Lemma leaf_chunks level l s : leafy l -> Utf8 s -> beautify_text o s (S level) = chunks (S level) l ->
  leaf o level true s = chunks (S level) l.
Proof.
  intros (F & B & C) U E. unfold leaf. rewrite E. cbn [andb]. rewrite trim_nil by (apply chunks_utf8; auto).
  destruct C as [C|(x & r & -> & N)].
  - rewrite (tw_white _ (chunks_white _ _ C)). reflexivity.
  - inversion F; subst. destruct (text_words (chunks (S level) (x :: r))) eqn:T; [exfalso; eapply chunks_words; eauto|].
    pose proof (trim_chunks (S level) x r H1 N H2 [] ltac:(constructor)) as TC. cbn [app] in TC. rewrite TC. cbn [chunks flat_map]. destruct x; [congruence|].
    cbn [wr app]. rewrite app_assoc_reverse. reflexivity.
Qed.
Lemma leaf_again level k l : leafy l -> white k -> nlf k ->
  leaf o level true (chunks (S level) l ++ [LF] ++ k) = chunks (S level) l.
Proof.
  intros L W K. pose proof L as (F & B & _). apply leaf_chunks; auto.
  - apply utf8_app; [apply chunks_utf8; auto|]. apply utf8_app; [apply white_lf|apply W].
  - apply bt_chunks; auto.
Qed.
Lemma leaf_lines level s : Utf8 s -> exists l, leafy l /\ leaf o level true s = chunks (S level) l.
Proof.
  intros U. destruct (contains_byte LF s) eqn:E.
  - destruct (bt_lines (S level) s U E) as (l & T & F & B). destruct (blanks_or l) as [BL|(b & x & r & -> & Bb & N)].
    + exists l. assert (L : leafy l) by (split; [auto|]; split; [auto|left; auto]). split; auto. apply leaf_chunks; auto.
    + apply Forall_app in F as [F1 F2]. inversion F2 as [|? ? X1 X2]; subst.
      assert (L : leafy (x :: r)).
      { split; [auto|]. split; [|right; eauto]. clear - B Bb. revert B. generalize 0 at 1. induction Bb as [|y b -> Bb IH]; intros n B; cbn [app] in B.
        - cbn [bounded] in *. destruct x; [|auto]. destruct B as [B1 B2]. split.
          + eapply keep_less; [|exact B1]. lia.
          + clear - B2. assert (X : forall l a b, a <= b -> bounded b l -> bounded a l).
            { clear. induction l as [|y l IH]; intros a b Q H; auto. destruct y; [|auto]. cbn [bounded] in *. destruct H as [H1 H2].
              split; [eapply keep_less; eauto|eapply (IH _ (S b)); auto; lia]. }
            eapply X; [|exact B2]. lia.
        - cbn [bounded] in B. destruct B as [_ B]. eapply IH; eauto. }
      exists (x :: r). split; auto. unfold leaf. rewrite T. cbn [andb].
      rewrite trim_nil by (apply chunks_utf8; apply Forall_app; auto).
      destruct (text_words (chunks (S level) (b ++ x :: r))) eqn:TW.
      * exfalso. rewrite chunks_app in TW. rewrite tw_white_l in TW by (apply chunks_white; auto). eapply chunks_words; eauto.
      * rewrite (trim_chunks (S level) x r X1 N X2 b Bb). cbn [chunks flat_map]. destruct x; [congruence|].
        cbn [wr app]. rewrite app_assoc_reverse. reflexivity.
  - assert (T : beautify_text o s (S level) = ln s) by (unfold beautify_text; rewrite E; reflexivity).
    pose proof (normal_ln s U) as N. destruct (ln s) as [|c x] eqn:Q.
    + exists []. split; [split; [constructor|]; split; [exact I|left; constructor]|]. unfold leaf. rewrite T. reflexivity.
    + exists [c :: x]. split; [split; [auto|]; split; [exact I|right; exists (c :: x), []; split; [auto|discriminate]]|].
      unfold leaf. rewrite T. cbn [andb]. rewrite trim_nil by apply N.
      destruct (text_words (c :: x)) eqn:TW; [exfalso; eapply normal_words; eauto; discriminate|].
      cbn [chunks flat_map wr app]. rewrite app_nil_r. f_equal. f_equal.
      apply trim_start_body. exists []. split; [auto|]. split; [apply white_nil|]. split; [apply N|]. intros c0 r0. apply normal_start. auto.
Qed.

(** ** Elements *)
Section All.
Variable P : view -> Prop.
Variable Q : str -> Prop.
Fixpoint all_kids (l : list (view * str)) : Prop :=
  match l with [] => True | (v, g) :: r => P v /\ Q g /\ all_kids r end.
End All.
(** All texts are UTF-8. *)
Fixpoint vgood (v : view) : Prop :=
  match v with VEmpty _ _ => True | VElem _ _ inner first rest => Utf8 inner /\ Utf8 first /\ all_kids vgood Utf8 rest end.
(** Every element with children goes over several lines. *)
Fixpoint spread (v : view) : Prop :=
  match v with
  | VEmpty _ _ | VElem _ _ _ _ [] => True
  | VElem _ _ inner _ rest => contains_byte LF inner = true /\ all_kids spread (fun _ => True) rest
  end.
(** So does everything between two children, unless it is white space. *)
Fixpoint settled (v : view) : Prop :=
  match v with
  | VEmpty _ _ | VElem _ _ _ _ [] => True
  | VElem _ _ inner first rest => contains_byte LF inner = true /\ calm first /\ all_kids settled calm rest
  end.

Section Ind.
Variable P : view -> Prop.
Hypothesis HE : forall name attrs, P (VEmpty name attrs).
Hypothesis HV : forall name attrs inner first rest, Forall (fun x => P (fst x)) rest -> P (VElem name attrs inner first rest).
Fixpoint view_ind' (v : view) : P v :=
  match v with
  | VEmpty name attrs => HE name attrs
  | VElem name attrs inner first rest =>
      HV name attrs inner first rest
        ((fix go (l : list (view * str)) : Forall (fun x => P (fst x)) l :=
            match l with [] => Forall_nil _ | (w, g) :: r => Forall_cons (w, g) (view_ind' w) (go r) end) rest)
  end.
End Ind.

Lemma view_good U cs void h : good U cs void h -> vgood (view_of h).
Proof.
  revert h. fix IH 1. intros h G.
  destruct h as [x|x|w x|name attrs pad body close pad2|name attrs pad x pad2|name attrs pad|name attrs pad]; try exact I.
  - rewrite view_element. assert (GB : Forall (good U cs void) body) by (inversion G; auto). clear G. cbn [vgood].
    split; [eapply all_utf8; eauto|]. unfold groups. clear - IH GB. revert body GB. fix IHl 1. intros body GB. destruct body as [|h r].
    + split; [apply utf8_nil|exact I].
    + assert (G : good U cs void h) by (inversion GB; auto). assert (GR : Forall (good U cs void) r) by (inversion GB; auto).
      destruct (IHl r GR) as [I1 I2]. specialize (IH h G). cbn [group]. destruct (is_element h); cbn [fst snd all_kids].
      * split; [apply utf8_nil|]. auto.
      * split; [apply utf8_app; auto; eapply render_utf8; eauto|auto].
  - cbn [view_of vgood all_kids]. assert (Ux : Utf8 x) by (inversion G; auto). auto.
Qed.

Lemma contains_app a b : contains_byte LF (a ++ b) = contains_byte LF a || contains_byte LF b.
Proof. unfold contains_byte. apply existsb_app. Qed.
Lemma contains_kids f level v g r : contains_byte LF (kids o f level ((v, g) :: r)) = true.
Proof. reflexivity. Qed.
Lemma contains_newline level : contains_byte LF (newline o true level) = true.
Proof. reflexivity. Qed.
Lemma ends_cons f level close first v g r : snd (ends o f level close first ((v, g) :: r)) = (f v, fst (ends o f level close g r)) :: snd (ends o f level close g r).
Proof. reflexivity. Qed.

Lemma spread_next v : forall level, spread (next o level v).
Proof.
  induction v as [name attrs|name attrs inner first rest IH] using view_ind'; intros level; [exact I|].
  cbn [next]. cbv zeta. destruct rest as [|[v g] r]; [exact I|]. rewrite ends_cons. cbn [spread]. split.
  - rewrite !contains_app, contains_kids, !orb_true_r. reflexivity.
  - generalize (newline o (wraps o level name attrs inner) level). intros c.
    assert (X : forall l g, Forall (fun x => forall level, spread (next o level (fst x))) l ->
      all_kids spread (fun _ => True) (snd (ends o (next o (S level)) (S level) c g l))).
    { clear. induction l as [|[v h] l IH]; intros g F; [exact I|]. inversion F; subst. cbn [ends snd all_kids]. cbn [fst] in H1. auto. }
    inversion IH; subst. cbn [all_kids]. split; [apply H1|]. split; [exact I|apply X; auto].
Qed.
Lemma settled_next v : spread v -> forall level, settled (next o level v).
Proof.
  induction v as [name attrs|name attrs inner first rest IH] using view_ind'; intros S level; [exact I|].
  cbn [next]. cbv zeta. destruct rest as [|[v g] r]; [exact I|]. cbn [spread] in S. destruct S as [S1 S2].
  assert (W : wraps o level name attrs inner = true) by (unfold wraps; rewrite S1; reflexivity). rewrite W.
  rewrite ends_cons. cbn [settled]. split; [|split].
  - rewrite !contains_app, contains_kids, !orb_true_r. reflexivity.
  - left. cbn [ends fst]. rewrite !contains_app. cbn [contains_byte existsb]. rewrite orb_true_r. reflexivity.
  - assert (X : forall l g, Forall (fun x => spread (fst x) -> forall level, settled (next o level (fst x))) l ->
      all_kids spread (fun _ => True) l ->
      calm (fst (ends o (next o (Datatypes.S level)) (Datatypes.S level) (newline o true level) g l)) /\
      all_kids settled calm (snd (ends o (next o (Datatypes.S level)) (Datatypes.S level) (newline o true level) g l))).
    { clear. induction l as [|[v h] l IH]; intros g F A.
      - cbn [ends fst snd]. split; [left; rewrite contains_app, contains_newline, orb_true_r; reflexivity|exact I].
      - inversion F; subst. cbn [all_kids] in A. destruct A as (A1 & _ & A2). cbn [fst] in H1. destruct (IH h H2 A2) as [I1 I2].
        cbn [ends fst snd all_kids]. split; [left; rewrite !contains_app; cbn [contains_byte existsb]; rewrite orb_true_r; reflexivity|auto]. }
    inversion IH; subst. cbn [all_kids] in *. destruct S2 as (T1 & _ & T2). cbn [fst] in H1. destruct (X r g H2 T2) as [X1 X2]. auto.
Qed.
(** A settled element is written as before. *)
Lemma out_again v : vgood v -> settled v -> forall level, out o level (next o level v) = out o level v.
Proof.
  induction v as [name attrs|name attrs inner first rest IH] using view_ind'; intros G S level; [reflexivity|].
  cbn [next]. cbv zeta. cbn [vgood] in G. destruct G as (G1 & G2 & G3). destruct rest as [|[v g] r].
  - cbn [out]. destruct (wraps o level name attrs inner) eqn:W.
    + assert (W' : wraps o level name attrs (leaf o level true inner ++ newline o true level) = true).
      { unfold wraps. rewrite contains_app, contains_newline, orb_true_r. reflexivity. }
      rewrite W'. destruct (leaf_lines level inner G1) as (l & L & E). rewrite E.
      unfold newline at 2. rewrite (leaf_again level (get_indent o level) l) by (auto using indent_no_lf; apply white_indent). reflexivity.
    + unfold newline. rewrite app_nil_r. unfold wraps in W. apply orb_false_iff in W as [W1 W2].
      assert (T : leaf o level false inner = ln inner) by (unfold leaf, beautify_text; rewrite W1; reflexivity).
      rewrite T. assert (C : contains_byte LF (ln inner) = false).
      { destruct (contains_byte LF (ln inner)) eqn:C; auto. unfold contains_byte in C. apply existsb_exists in C as (x & X1 & X2).
        exfalso. apply (ln_no_lf inner G1). replace LF with x by lia. auto. }
      assert (W' : wraps o level name attrs (ln inner) = false).
      { unfold wraps. rewrite C. cbn [orb]. unfold too_long in *. destruct (wrap_line_length o); auto.
        pose proof (ln_len inner G1). lia. }
      rewrite W'. unfold leaf, beautify_text. rewrite C. change (collapse (trim (ln inner))) with (ln (ln inner)).
      rewrite ln_ln by auto. reflexivity.
  - cbn [settled] in S. destruct S as (S1 & S2 & S3).
    assert (W : wraps o level name attrs inner = true) by (unfold wraps; rewrite S1; reflexivity). rewrite W.
    rewrite ends_cons. cbn [out]. rewrite W.
    set (ii := beautify_text o first (Datatypes.S level) ++ _).
    assert (W' : wraps o level name attrs ii = true).
    { unfold wraps, ii. rewrite !contains_app, contains_kids, !orb_true_r. reflexivity. }
    rewrite W'. clear W' ii W S1 G1.
    assert (F : beautify_text o (fst (ends o (next o (Datatypes.S level)) (Datatypes.S level) (newline o true level) first ((v, g) :: r))) (Datatypes.S level) =
       beautify_text o first (Datatypes.S level)).
    { cbn [ends fst]. apply bt_again; auto using indent_no_lf. apply white_indent. }
    rewrite F.
    assert (X : forall l g, Forall (fun x => vgood (fst x) -> settled (fst x) -> forall level, out o level (next o level (fst x)) = out o level (fst x)) l ->
      all_kids vgood Utf8 l -> all_kids settled calm l -> Utf8 g -> calm g ->
      beautify_text o (fst (ends o (next o (Datatypes.S level)) (Datatypes.S level) (newline o true level) g l)) (Datatypes.S level) ++
      kids o (out o (Datatypes.S level)) (Datatypes.S level) (snd (ends o (next o (Datatypes.S level)) (Datatypes.S level) (newline o true level) g l)) =
      beautify_text o g (Datatypes.S level) ++ kids o (out o (Datatypes.S level)) (Datatypes.S level) l).
    { clear. induction l as [|[v h] l IH]; intros g F A B Ug Cg.
      - cbn [ends fst snd kids]. unfold newline. rewrite bt_again; auto using indent_no_lf. apply white_indent.
      - inversion F; subst. cbn [all_kids] in A, B. destruct A as (A1 & A2 & A3), B as (B1 & B2 & B3). cbn [fst] in H1.
        cbn [ends fst snd kids]. rewrite bt_again by (auto using indent_no_lf; apply white_indent). rewrite H1 by auto.
        rewrite (IH h H2 A3 B3 A2 B2). reflexivity. }
    inversion IH; subst. cbn [all_kids] in G3, S3. destruct G3 as (A1 & A2 & A3), S3 as (B1 & B2 & B3). cbn [fst] in H1.
    cbn [kids]. rewrite H1 by auto. rewrite (X r g H2 A3 B3 A2 B2). reflexivity.
Qed.
End Settle.
