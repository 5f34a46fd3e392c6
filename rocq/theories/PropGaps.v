(** * C68: the text between the elements of a formatted document *)
From Verif Require Import Base Stream Scanner BaseFacts ScannerFacts ScanStep ScanProps ScanPanic
  ScanShape ScanResume ScanEnter ScanLocal Tree Parser ParseSpec ParseInv ParseOrder PropParse TreeFacts PropTree
  TextDoc PropDoc Formatter FormatFacts RepoTestsFormat PropFormat FormatWords Layout LayoutTree LayoutSettle PropLines.
From Coq Require Import ZifyBool ZifyNat ZifyN Permutation Sorted.

(** ** What is said about text *)
(** The words of a line, with one space between them *)
Definition one_spaced (l : str) : str := join [SP] (map encode (text_words l)).
(** A line with words in it, as it is written [k] levels deep; nothing for another line *)
Definition worded (o : format_options) (k : nat) (l : str) : list str :=
  match text_words l with [] => [] | _ => [indentation o k ++ one_spaced l] end.
(** The blank line number [n] (from 0) of a run of them is kept: line feeds are preserved, and as many as
    [n] are fewer than the maximum, if there is one. *)
Definition kept_blank (o : format_options) (n : nat) : Prop :=
  preserve_new_lines o = true /\ forall w, max_preserve_new_lines o = Some w -> n < w.
(** How lines are written: those with words with their words; of the others, each that is kept. *)
Inductive written (o : format_options) (k : nat) : nat -> list str -> list str -> Prop :=
| W_nil n : written o k n [] []
| W_words n l r out : text_words l <> [] -> written o k 0 r out ->
    written o k n (l :: r) ((indentation o k ++ one_spaced l) :: out)
| W_keep n l r out : text_words l = [] -> kept_blank o n -> written o k (S n) r out ->
    written o k n (l :: r) ((if indent_empty_lines o then indentation o k else []) :: out)
| W_drop n l r out : text_words l = [] -> ~ kept_blank o n -> written o k (S n) r out ->
    written o k n (l :: r) out.
(** The text from [a] to [b] is in front of, between or behind the children of [m]; what comes after it is
    indented [j] levels. *)
Inductive gap (m : node) (k : nat) : nat -> nat -> nat -> Prop :=
| Gap_first s c r : n_ste m = Some s -> n_children m = c :: r -> gap m k s (n_start c) (S k)
| Gap_between l1 c1 c2 l2 : n_children m = l1 ++ c1 :: c2 :: l2 -> gap m k (n_end c1) (n_start c2) (S k)
| Gap_last l c f : n_ets m = Some f -> n_children m = l ++ [c] -> gap m k (n_end c) f k.

(** ** Text *)
Section Text.
Variable o : format_options.
Lemma join_encode l : encode (joinsp l) = join [SP] (map encode l).
Proof.
  induction l as [|w l IH]; [reflexivity|]. destruct l as [|w2 l]; [reflexivity|].
  change (joinsp (w :: w2 :: l)) with (w ++ SP :: joinsp (w2 :: l)).
  change (join [SP] (map encode (w :: w2 :: l))) with (encode w ++ [SP] ++ join [SP] (map encode (w2 :: l))).
  rewrite <- IH. unfold encode. rewrite flat_map_app. reflexivity.
Qed.
Lemma ln_one s : Utf8 s -> ln s = one_spaced s.
Proof. intros H. rewrite ln_words by auto. apply join_encode. Qed.
Lemma keep_iff n : keep_empty_line o n = true <-> kept_blank o n.
Proof.
  unfold keep_empty_line, kept_blank. rewrite andb_true_iff. destruct (max_preserve_new_lines o) as [w|].
  - split; intros [A B]; (split; [auto|]); [intros w' E; injection E as <-; lia|specialize (B w eq_refl); lia].
  - split; intros [A B]; split; auto. discriminate.
Qed.
Lemma kept_written k c ends tl : forall ls i pc, 0 < i -> Forall Utf8 ls ->
  (forall j, j < length ls -> (i + j =? c - 1) && negb ends = false) ->
  exists out pc', kept o c ends i pc (map strip_cr ls ++ tl) = out ++ kept o c ends (i + length ls) pc' tl /\
    written o k pc ls (map (wr o k) out).
Proof.
  induction ls as [|l r IH]; intros i pc I F L.
  { exists [], pc. cbn [map app length]. rewrite Nat.add_0_r. split; auto. constructor. }
  inversion F as [|? ? Fl Fr]; subst. cbn [map app kept length]. rewrite strip_ln by auto.
  assert (L' : forall j, j < length r -> (S i + j =? c - 1) && negb ends = false).
  { intros j J. specialize (L (S j) ltac:(cbn [length]; lia)). rewrite Nat.add_succ_r in L. exact L. }
  assert (K : (negb (i =? 0) && (negb (i =? c - 1) || ends))%bool = true).
  { specialize (L 0 ltac:(cbn [length]; lia)). rewrite Nat.add_0_r in L. destruct (i =? c - 1), ends; cbn in *; try discriminate; lia. }
  rewrite K. cbn [andb]. replace (i =? 0) with false by lia. replace (i + S (length r)) with (S i + length r) by lia.
  destruct (ln l) as [|b x] eqn:E.
  - apply ln_nil in E; auto. destruct (keep_empty_line o pc) eqn:Q.
    + destruct (IH (S i) (S pc) ltac:(lia) Fr L') as (out & pc' & E1 & W). exists ([] :: out), pc'. rewrite E1. split; auto.
      cbn [map wr]. rewrite indentation_eq. apply W_keep; auto. apply keep_iff. auto.
    + destruct (IH (S i) (S pc) ltac:(lia) Fr L') as (out & pc' & E1 & W). exists out, pc'. rewrite E1. split; auto.
      apply W_drop; auto. rewrite <- keep_iff, Q. discriminate.
  - destruct (IH (S i) 0 ltac:(lia) Fr L') as (out & pc' & E1 & W). exists ((b :: x) :: out), pc'. rewrite E1. split; auto.
    cbn [map]. assert (NE : text_words l <> []) by (intros Z; apply ln_nil in Z; auto; congruence).
    unfold wr at 1. rewrite indentation_eq, <- E, ln_one by auto. apply W_words; auto.
Qed.
Lemma split_pieces first mid last : nlf first -> Forall nlf mid -> nlf last ->
  split_lf (join [LF] (first :: mid ++ [last])) = first :: mid ++ [last].
Proof.
  intros A B C. revert first A. induction B as [|x mid X B IH]; intros first A; cbn [app].
  - cbn [join app]. rewrite split_mid by auto. rewrite split_no_lf by auto. reflexivity.
  - change (join [LF] (first :: x :: mid ++ [last])) with (first ++ LF :: join [LF] (x :: mid ++ [last])).
    rewrite split_mid by auto. rewrite IH by auto. reflexivity.
Qed.
Lemma lines_last m k : lines_of (m ++ [k]) = map strip_cr m ++ match k with [] => [] | _ => [k] end.
Proof.
  induction m as [|y m IH]; [reflexivity|]. cbn [app map]. rewrite <- IH. cbn [lines_of].
  destruct (m ++ [k]) eqn:E; [destruct m; discriminate|]. reflexivity.
Qed.
Lemma join_last first mid last : exists a, join [LF] (first :: mid ++ [last]) = a ++ LF :: last.
Proof.
  revert first. induction mid as [|x mid IH]; intros first; cbn [app].
  - exists first. reflexivity.
  - destruct (IH x) as (a & E). change (join [LF] (first :: x :: mid ++ [last])) with (first ++ LF :: join [LF] (x :: mid ++ [last])).
    rewrite E. exists (first ++ LF :: a). rewrite app_assoc_reverse. reflexivity.
Qed.
Lemma wr_worded k l : Utf8 l -> map (wr o k) (match ln l with [] => [] | x => [x] end) = worded o k l.
Proof.
  intros Ul. unfold worded. destruct (ln l) as [|b x] eqn:E.
  - apply ln_nil in E; auto. rewrite E. reflexivity.
  - destruct (text_words l) eqn:T; [apply ln_nil in T; auto; congruence|]. cbn [map]. unfold wr. rewrite indentation_eq, <- E, ln_one by auto. reflexivity.
Qed.
Lemma text_written k first mid last : Utf8 (join [LF] (first :: mid ++ [last])) ->
  nlf first -> Forall nlf mid -> nlf last ->
  exists out, written o k 0 mid out /\
    beautify_text o (join [LF] (first :: mid ++ [last])) k = unl (worded o k first ++ out ++ worded o k last).
Proof.
  intros UT NF NM NL. pose proof (split_utf8 _ UT) as SU. rewrite split_pieces in SU by auto.
  inversion SU as [|? ? Uf SU']; subst. apply Forall_app in SU' as [Um Ul]. inversion Ul as [|? ? Ul' _]; subst.
  destruct (join_last first mid last) as (a & EJ).
  unfold beautify_text. assert (C : contains_byte LF (join [LF] (first :: mid ++ [last])) = true).
  { rewrite EJ. apply contains_in. apply in_or_app. right. left. auto. }
  assert (LN : lines (join [LF] (first :: mid ++ [last])) = map strip_cr (first :: mid) ++ match last with [] => [] | _ => [last] end).
  { unfold lines. rewrite split_pieces by auto. apply (lines_last (first :: mid)). }
  assert (EN : ends_lf (join [LF] (first :: mid ++ [last])) = match last with [] => true | _ => false end).
  { rewrite EJ. apply ends_chunks. auto. }
  rewrite C, LN, EN, text_chunks, chunks_unl.
  set (ends := match last with [] => true | _ => false end). set (tl := match last with [] => [] | _ => [last] end).
  set (c := length (map strip_cr (first :: mid) ++ tl)).
  assert (Cc : c = S (length mid) + length tl) by (unfold c; rewrite app_length, map_length; reflexivity).
  assert (L : forall j, j < length mid -> (1 + j =? c - 1) && negb ends = false).
  { intros j J. rewrite Cc. unfold tl, ends. destruct last; cbn [length negb]; [apply andb_false_r|]. rewrite andb_true_r. lia. }
  destruct (kept_written k c ends tl mid 1 0 ltac:(lia) Um L) as (out & pc' & E & W).
  exists (map (wr o k) out). split; [exact W|]. f_equal.
  assert (LAST : map (wr o k) (kept o c ends (1 + length mid) pc' tl) = worded o k last).
  { assert (Q : last = [] \/ (tl = [last] /\ ends = false)) by (unfold tl, ends; destruct last; auto).
    destruct Q as [Q|[Q1 Q2]]; [unfold tl; rewrite Q; reflexivity|]. rewrite Q1 in *. rewrite Q2. cbn [kept].
    rewrite <- wr_worded by auto. destruct (ln last); [|reflexivity].
    replace (1 + length mid =? c - 1) with true; [cbn [negb orb]; rewrite andb_false_r; reflexivity|].
    symmetry. rewrite Cc. cbn [length]. lia. }
  cbn [map app kept]. rewrite strip_ln by auto. rewrite <- (wr_worded k first) by auto.
  destruct (ln first) as [|b x]; cbn [Nat.eqb negb andb]; rewrite E; cbn [map app]; rewrite map_app, LAST; reflexivity.
Qed.
End Text.

(** ** In a document *)
Section Gaps.
Variables (o : format_options) (t : str).
Lemma start_gt k n tag st : n_ets n <> None -> start_text o k n tag st -> exists a, st = a ++ bs ">".
Proof.
  intros E S. assert (SC : is_self_closing n = false) by (unfold is_self_closing; destruct (n_ets n); [reflexivity|congruence]).
  destruct S as [[_ ->]|[_ ->]]; unfold one_line, many_lines; rewrite SC.
  - eexists. rewrite !app_assoc. reflexivity.
  - eexists. rewrite !app_assoc. reflexivity.
Qed.
Lemma node_gt n k x : fnode t n -> beautify_node t o n k = Ok x -> exists a, x = a ++ bs ">".
Proof.
  intros F H. destruct (n_ets n) as [e|] eqn:E.
  - destruct (node_text o t n k x e F H E) as (tag & st & s & ch & close & _ & _ & _ & _ & _ & -> & _). eexists. rewrite !app_assoc. reflexivity.
  - destruct (single_text o t n k x F H E) as (tag & _ & [[_ ->]|[_ ->]]); unfold one_line, many_lines, is_self_closing; rewrite E.
    + exists (indentation o k ++ bs "<" ++ tag ++ flat_map (fun x => [SP] ++ attr_text n x) (attribute_names_by_order n) ++ bs " /").
      rewrite !app_assoc_reverse. reflexivity.
    + exists (indentation o k ++ bs "<" ++ tag ++ flat_map (fun x => [LF] ++ attr_indentation o k ++ attr_text n x) (attribute_names_by_order n) ++ [LF] ++ indentation o k ++ bs "/").
      rewrite !app_assoc_reverse. reflexivity.
Qed.
Lemma node_lt n k x : fnode t n -> beautify_node t o n k = Ok x -> exists a, x = indentation o k ++ bs "<" ++ a.
Proof.
  intros F H. destruct (node_start t o n k x F H) as (tag & s & post & _ & [[_ ->]|[_ ->]] & ->); unfold one_line, many_lines; rewrite !app_assoc_reverse; eauto.
Qed.
(** The text of the children around the one that follows [l1] *)
Lemma children_at k e l1 : forall c l2 prev x, children_text t o k e prev (l1 ++ c :: l2) = Ok x ->
  exists A y tx B, slice t (match rev l1 with [] => prev | p :: _ => n_end p end) (n_start c) = Ok tx /\
    beautify_node t o c (S k) = Ok y /\ x = A ++ beautify_text o tx (S k) ++ [LF] ++ y ++ B /\
    (l1 = [] -> A = []) /\
    (forall l1' p, l1 = l1' ++ [p] -> exists A' z, beautify_node t o p (S k) = Ok z /\ A = A' ++ z) /\
    (l2 = [] -> exists tl, slice t (n_end c) e = Ok tl /\ B = beautify_text o tl (S k)).
Proof.
  induction l1 as [|d l1 IH]; intros c l2 prev x H; cbn [app children_text] in H.
  - apply bind_ok in H as (tx & T & H). apply bind_ok in H as (y & Y & H). apply bind_ok in H as (rest & R & H). apply Ok_inj in H. subst x.
    exists [], y, tx, rest. cbn [rev app]. split; auto. split; auto. split; auto. split; auto. split.
    + intros l1' p E. destruct l1'; discriminate.
    + intros ->. apply bind_ok in R as (tl & T2 & R). apply Ok_inj in R. eauto.
  - apply bind_ok in H as (tx & T & H). apply bind_ok in H as (y & Y & H). apply bind_ok in H as (rest & R & H). apply Ok_inj in H. subst x.
    assert (R' : children_text t o k e (n_end d) (l1 ++ c :: l2) = Ok rest) by (destruct (l1 ++ c :: l2) eqn:E; [destruct l1; discriminate|exact R]).
    clear R. destruct (IH c l2 _ _ R') as (A & y2 & tx2 & B & S1 & S2 & -> & S3 & S4 & S5).
    exists (beautify_text o tx (S k) ++ [LF] ++ y ++ A), y2, tx2, B.
    split. { cbn [rev]. destruct (rev l1) as [|p q] eqn:Q; exact S1. }
    split; auto. split; [rewrite !app_assoc_reverse; reflexivity|]. split; [discriminate|]. split; [|auto].
    intros l1' p E. destruct l1 as [|d' l1].
    + destruct l1' as [|a l1']; [|destruct l1'; discriminate]. injection E as <-. rewrite (S3 eq_refl), app_nil_r.
      exists (beautify_text o tx (S k) ++ [LF]), y. split; auto. rewrite app_assoc_reverse. reflexivity.
    + destruct l1' as [|a l1']; [discriminate|]. injection E as <- E. destruct (S4 l1' p E) as (A' & z & Z & ->).
      exists (beautify_text o tx (S k) ++ [LF] ++ y ++ A'), z. split; auto. rewrite !app_assoc_reverse. reflexivity.
Qed.
Lemma slice_sub a b x : slice t a b = Ok x -> x = sub t a b.
Proof. intros H. apply slice_ok in H. tauto. Qed.
End Gaps.

(** Text with line feeds in front of, between or behind the children of an element, its lines being [first],
    those of [mid] and [last]: it is written as lines, right behind the tag in front of it and followed by a new line
    with the next tag. Of each line with words the words are written, one space between them, indented one level
    deeper than the element. Of the blank lines of [mid] those are written that the options allow. *)
Theorem C68_gaps : forall U d o cs e v roots r k m f a b j first mid last, textdoc_ok d -> format U d None o cs = Ok [e] ->
  body (d_text d) v -> parse U v cs html5_void = Ok roots ->
  In r roots -> at_depth r k m -> n_ets m = Some f -> gap m k a b j ->
  sub v a b = join [LF] (first :: mid ++ [last]) -> ~ In LF first -> Forall (fun l => ~ In LF l) mid -> ~ In LF last ->
  exists pre out post, written o (S k) 0 mid out /\
    te_text e = pre ++ bs ">" ++ unl (worded o (S k) first ++ out ++ worded o (S k) last) ++ LF :: indentation o j ++ bs "<" ++ post.
Proof.
  intros U d o cs e v roots r k m f a b j first mid last HD H B P I D Ef G ET NF NM NL.
  destruct (whole_parts _ _ _ _ _ _ _ HD H B P) as (Uv & x & X & E).
  assert (FA : forall m, In m (flat_map rendered roots) -> fnode v m).
  { intros y M. eapply rendered_all; [|exact M]. eapply parsed_fnode; eauto. }
  assert (IR : forall y, In y (rendered m) -> In y (flat_map rendered roots)).
  { intros y Y. apply in_flat_map. exists r. split; auto. eapply depth_rendered; eauto. }
  assert (M : exists pre y post, beautify_node v o m k = Ok y /\ x = pre ++ y ++ post).
  { clear E IR FA P H B. revert x X I. induction roots as [|r' l IH]; intros x X I; [contradiction|]. cbn [beautify_roots] in X.
    apply bind_ok in X as (y1 & Y1 & X). apply bind_ok in X as (y2 & Y2 & X). apply Ok_inj in X. subst x. destruct I as [->|I].
    - destruct (depth_text v o r k m D 0 y1 Y1) as (pre & z & post & Z & -> & _). rewrite Nat.add_0_r in Z.
      exists pre, z, (post ++ y2). split; auto. rewrite ?app_assoc_reverse. reflexivity.
    - destruct (IH _ Y2 I) as (pre & z & post & Z & ->). exists (y1 ++ pre), z, post. split; auto. rewrite ?app_assoc_reverse. reflexivity. }
  destruct M as (pre & y & post & Y & ->).
  assert (FM : fnode v m) by (apply FA, IR; rewrite rendered_eq; left; auto).
  assert (FC : forall c, In c (n_children m) -> fnode v c).
  { intros c J. apply FA, IR. rewrite rendered_eq, Ef. right. apply in_flat_map. exists c. split; auto. rewrite rendered_eq. left. auto. }
  destruct (node_text o v m k y f FM Y Ef) as (tag & st & s & ch & close & Tg & S & Es & C & Us & -> & CL).
  destruct (start_gt o k m tag st) as (st' & ES); [congruence|auto|].
  assert (TX : exists post', te_text e = (pre ++ (st ++ (ch ++ leaf_text o m k s f (sub v s f)) ++ close ++ bs "</" ++ tag ++ bs ">") ++ post')).
  { destruct E as [->| ->]; [exists post; auto|]. exists (post ++ [LF]). rewrite ?app_assoc_reverse. reflexivity. }
  destruct TX as (post' & TX). rewrite TX. clear TX E.
  assert (UT : forall tx, slice v a b = Ok tx -> exists out, written o (Datatypes.S k) 0 mid out /\
     beautify_text o tx (Datatypes.S k) = unl (worded o (Datatypes.S k) first ++ out ++ worded o (Datatypes.S k) last)).
  { intros tx T. pose proof T as T'. apply slice_ok in T' as (Q1 & Q2 & Q3 & Q4 & Q5). rewrite Q5, ET.
    apply text_written; auto. rewrite <- ET. apply (slice_bd v a b); auto; apply boundary_Bd; auto; lia. }
  destruct G as [s0 c l Es0 EC|l1 c1 c2 l2 EC|l c f0 Ef0 EC].
  - assert (s0 = s) by congruence. subst s0. rewrite EC in C. destruct (children_at o v k f [] c l s ch C) as (A & z & tx & R & T & Z & -> & A0 & _).
    cbn [rev] in T. destruct (UT _ T) as (out & W & ->). destruct (node_lt o v c (Datatypes.S k) z) as (q & ->); auto. { apply FC. rewrite EC. left. auto. }
    rewrite (A0 eq_refl), ES. exists (pre ++ st'), out, (q ++ R ++ leaf_text o m k s f (sub v s f) ++ close ++ bs "</" ++ tag ++ bs ">" ++ post').
    split; [exact W|]. rewrite !app_assoc_reverse. cbn [app]. rewrite ?app_assoc_reverse. cbn [app]. rewrite ?app_assoc_reverse. reflexivity.
  - rewrite EC in C. replace (l1 ++ c1 :: c2 :: l2) with ((l1 ++ [c1]) ++ c2 :: l2) in C by (rewrite app_assoc_reverse; reflexivity).
    destruct (children_at o v k f (l1 ++ [c1]) c2 l2 s ch C) as (A & z & tx & R & T & Z & -> & _ & A1 & _).
    rewrite rev_app_distr in T. cbn [rev app] in T. destruct (UT _ T) as (out & W & ->).
    destruct (A1 l1 c1 eq_refl) as (A' & z1 & Z1 & ->).
    destruct (node_lt o v c2 (Datatypes.S k) z) as (q & ->); auto. { apply FC. rewrite EC. apply in_or_app. right. right. left. auto. }
    destruct (node_gt o v c1 (Datatypes.S k) z1) as (q1 & ->); auto. { apply FC. rewrite EC. apply in_or_app. right. left. auto. }
    exists (pre ++ st ++ A' ++ q1), out, (q ++ R ++ leaf_text o m k s f (sub v s f) ++ close ++ bs "</" ++ tag ++ bs ">" ++ post'). split; [exact W|]. rewrite !app_assoc_reverse. cbn [app]. rewrite ?app_assoc_reverse. cbn [app]. rewrite ?app_assoc_reverse. reflexivity.
  - assert (f0 = f) by congruence. subst f0. rewrite EC in C.
    destruct (children_at o v k f l c [] s ch C) as (A & z & tx & R & T & Z & -> & _ & _ & A2).
    destruct (A2 eq_refl) as (tl & T2 & ->). destruct (UT _ T2) as (out & W & ->).
    destruct (node_gt o v c (Datatypes.S k) z) as (q1 & ->); auto. { apply FC. rewrite EC. apply in_or_app. right. left. auto. }
    assert (LE : leaf_text o m k s f (sub v s f) = []).
    { unfold leaf_text. rewrite EC, app_length. cbn [length]. replace (_ =? 0) with false by lia. reflexivity. }
    assert (CLo : close = LF :: indentation o k).
    { destruct CL as [(_ & K & _)|(_ & _ & K)]; auto. exfalso. unfold node_is_wrap in K. apply orb_false_iff in K as [K _].
      assert (IN : In LF (sub v s f)).
      { destruct (join_last first mid last) as (a0 & EJ). rewrite EJ in ET.
        destruct (fn_ends _ _ FM f Ef) as (s' & Es' & _ & _ & _ & _ & _ & CH). assert (s' = s) by congruence. subst s'.
        assert (SE : s <= n_end c /\ n_end c <= f).
        { rewrite EC in CH. clear - CH. revert CH. generalize s. induction l as [|y l IH]; intros p; cbn [app chain].
          - lia.
          - intros (Q1 & Q2 & Q3). apply IH in Q3. lia. }
        rewrite (sub_split v s (n_end c) f) by lia. apply in_or_app. right. rewrite ET. apply in_or_app. right. left. auto. }
      apply contains_in in IN. congruence. }
    rewrite LE, CLo. exists (pre ++ st ++ A ++ beautify_text o tx (Datatypes.S k) ++ [LF] ++ q1), out, (bs "/" ++ tag ++ bs ">" ++ post'). split; [exact W|].
    rewrite !app_assoc_reverse. cbn [app]. rewrite ?app_assoc_reverse. cbn [app]. rewrite ?app_assoc_reverse. reflexivity.
Qed.
Print Assumptions C68_gaps.

(** The hypotheses are met: between the paragraph and the bold element of the document of PropLines there are three
    blank lines. One is written with the options there, and with no maximum all three are. *)
Definition many_blanks := mkFmt 2 true false (Some 120) None true None true.
Example gaps_hyp : exists r c1 c2, In r lroots /\ at_depth r 0 r /\ n_ets r <> None /\ n_children r = [] ++ c1 :: c2 :: [] /\
  gap r 0 (n_end c1) (n_start c2) 1 /\
  sub ldoc (n_end c1) (n_start c2) = join [LF] ([] :: [[]; []; []] ++ [[]]).
Proof.
  exists (nth 0 lroots (mkNode None 0 0 [] false None None [])), (nth 1 (doc_nodes lroots) (mkNode None 0 0 [] false None None [])),
    (nth 2 (doc_nodes lroots) (mkNode None 0 0 [] false None None [])).
  assert (E : n_children (nth 0 lroots (mkNode None 0 0 [] false None None [])) =
     [] ++ nth 1 (doc_nodes lroots) (mkNode None 0 0 [] false None None []) :: nth 2 (doc_nodes lroots) (mkNode None 0 0 [] false None None []) :: [])
    by (vm_compute; reflexivity).
  split; [vm_compute; auto|]. split; [apply AD_here|]. split; [vm_compute; discriminate|]. split; [exact E|]. split; [eapply Gap_between; exact E|].
  vm_compute. reflexivity.
Qed.
Example gaps_one : written lopt 1 0 [[]; []; []] [[]].
Proof.
  apply W_keep; [reflexivity|split; [reflexivity|intros w W; injection W as <-; lia]|].
  apply W_drop; [reflexivity|intros [_ K]; specialize (K 1 eq_refl); lia|].
  apply W_drop; [reflexivity|intros [_ K]; specialize (K 1 eq_refl); lia|]. constructor.
Qed.
Example gaps_all : written many_blanks 1 0 [[]; []; []] [[]; []; []] /\
  format demo_unicode ldocx None many_blanks false =
  Ok [mkEdit (mkRange (mkPos 0 0) (mkPos 11 26))
    (text ["<div>"; "  <p>"; "    one"; ""; ""; ""; "    two"; "  </p>"; ""; ""; ""; "  <b class=x>y z</b>"; "</div>"]%string ++ [LF])].
Proof.
  split; [|vm_compute; reflexivity].
  repeat (apply W_keep; [reflexivity|split; [reflexivity|discriminate]|]). constructor.
Qed.
