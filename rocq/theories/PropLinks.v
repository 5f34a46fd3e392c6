(** * C37, C38: document links *)
From Verif Require Import Base Stream Scanner BaseFacts ScannerFacts ScanStep ScanProps ScanPanic
  ScanShape ScanResume ScanLocal Tree Parser ParseSpec ParseInv PropParse TextDoc PropDoc PropTags SelectionRange SelAttr
  TokenLoop Folding PropFolding DataManager Uri Links PropUri.
From Coq Require Import DecimalString ZifyBool ZifyNat ZifyN Sorting.Sorted.

(** ** C38: quotes *)
(** [v] is [s] without the pair of equal quotes around it, if there is one. *)
Definition quote (q : N) : Prop := q = 34%N \/ q = 39%N.
Definition quoted (s : str) : Prop := exists q v, quote q /\ s = q :: v ++ [q].
Definition stripped (s v : str) : Prop :=
  (exists q, quote q /\ s = q :: v ++ [q]) \/ (~ quoted s /\ v = s).
Definition lone_quote (s : str) : Prop := exists q, quote q /\ s = [q].

Lemma is_quote_iff q : is_quote q = true <-> quote q.
Proof. unfold is_quote, quote. lia. Qed.
Lemma cons_rev (a : N) r : exists b m, rev (a :: r) = b :: m /\ a :: r = rev m ++ [b].
Proof.
  destruct (rev (a :: r)) as [|b m] eqn:E.
  - apply (f_equal (@length N)) in E. rewrite rev_length in E. discriminate.
  - exists b, m. split; auto. rewrite <- (rev_involutive (a :: r)), E. reflexivity.
Qed.
Lemma normalize_cases s :
  (exists q v, quote q /\ s = q :: v ++ [q] /\ normalize_ref s = Ok v) \/
  (exists q, quote q /\ s = [q] /\ normalize_ref s = Panic PSlice) \/
  (~ quoted s /\ ~ lone_quote s /\ normalize_ref s = Ok s).
Proof.
  destruct s as [|a r].
  { right; right. split; [|split; auto]; [intros (q & v & _ & E)|intros (q & _ & E)]; discriminate. }
  unfold normalize_ref. destruct (cons_rev a r) as (b & m & E1 & E2). rewrite E1.
  destruct ((a =? b)%N && is_quote a) eqn:C.
  - apply andb_prop in C as [C1 C2]. apply N.eqb_eq in C1. subst b. apply is_quote_iff in C2.
    destruct r as [|x r].
    + right; left. exists a. auto.
    + left. exists a, (removelast (x :: r)). split; auto. split; auto.
      destruct (rev m) as [|y w] eqn:M; cbn [app] in E2; [discriminate|].
      injection E2 as _ E2. rewrite E2, removelast_app by discriminate. cbn [removelast]. rewrite app_nil_r. auto.
  - right; right.
    assert (NQ : quoted (a :: r) -> False).
    { intros (q & v & Q & E). inv E. rewrite app_comm_cons in E2. apply app_inj_tail in E2 as [_ <-].
      apply is_quote_iff in Q. rewrite Q, N.eqb_refl in C. discriminate. }
    split; auto. split; auto. intros (q & Q & E). inv E.
    destruct (rev m) as [|y w]; cbn [app] in E2; [|destruct w; discriminate]. inv E2.
    apply is_quote_iff in Q. rewrite Q, N.eqb_refl in C. discriminate.
Qed.
Lemma lone_not_quoted s : lone_quote s -> ~ quoted s.
Proof. intros (q & _ & ->) (q' & v & _ & E). inv E. destruct v; discriminate. Qed.

Theorem C38_strip : forall s v, normalize_ref s = Ok v <-> stripped s v /\ ~ lone_quote s.
Proof.
  intros s v. destruct (normalize_cases s) as [(q & w & Q & -> & R)|[(q & Q & -> & R)|(N1 & N2 & R)]]; rewrite R.
  - split.
    + intros H. inv H. split; [left; eauto|]. intros (q' & _ & E). inv E. destruct v; discriminate.
    + intros [[(q' & Q' & E)|[N _]] _].
      * injection E as -> E. apply app_inj_tail in E as [-> _]. auto.
      * exfalso. apply N. exists q, w. auto.
  - split; [discriminate|]. intros [_ N]. exfalso. apply N. exists q. auto.
  - split.
    + intros H. inv H. split; auto. right. auto.
    + intros [[(q' & Q' & ->)|[_ ->]] _]; auto. exfalso. apply N1. exists q', v. auto.
Qed.
Print Assumptions C38_strip.
Theorem C38_panics : forall s, (exists r, normalize_ref s = Panic r) <-> lone_quote s.
Proof.
  intros s. destruct (normalize_cases s) as [(q & w & Q & -> & R)|[(q & Q & -> & R)|(N1 & N2 & R)]]; rewrite R.
  - split; [intros (r & E); discriminate|]. intros (q' & _ & E). inv E. destruct w; discriminate.
  - split; eauto. intros _. exists q. auto.
  - split; [intros (r & E); discriminate|]. tauto.
Qed.
Print Assumptions C38_panics.
Theorem C38_unique : forall s v v', stripped s v -> stripped s v' -> v = v'.
Proof.
  intros s v v' [(q & Q & ->)|[N ->]] [(q' & Q' & E)|[N' ->]]; auto.
  - injection E as -> E. apply app_inj_tail in E as [-> _]. auto.
  - exfalso. apply N'. exists q, v. auto.
  - exfalso. apply N. exists q', v'. auto.
Qed.
Print Assumptions C38_unique.
Example C38_demo : normalize_ref (bs "'a""b'") = Ok (bs "a""b") /\ normalize_ref (bs """""x""""") = Ok (bs """x""") /\
  normalize_ref (bs "'x""") = Ok (bs "'x""") /\ normalize_ref (bs "''") = Ok [].
Proof. vm_compute. auto. Qed.

(** ** Specification of C37 *)
(** The bytes from [a] to [b] of the token [k] are its value without quotes. *)
Inductive value_span (t : str) (k : token) (v : str) : nat -> nat -> Prop :=
| span_quoted q : quote q -> tk_text t k = q :: v ++ [q] -> value_span t k v (tk_off k + 1) (tk_end k - 1)
| span_plain : ~ quoted (tk_text t k) -> tk_text t k = v -> value_span t k v (tk_off k) (tk_end k).
(** White space, [javascript] in any case, a colon. *)
Definition same_letter (l c : N) : Prop := c = l \/ c = (l - 32)%N \/ (l = 115%N /\ c = 383%N).
Definition javascript_url (v : str) : Prop :=
  exists ws js rest, v = encode (ws ++ js ++ [58%N] ++ rest) /\ forallb scalar (ws ++ js ++ [58%N] ++ rest) = true /\
    forallb is_uspace ws = true /\ Forall2 same_letter (bs "javascript") js.
Definition has_line_break (v : str) : Prop := In 10%N v \/ In 13%N v.
Definition has_word (U : unicode) (v : str) : Prop := exists c, In c (decode v) /\ is_word U c = true.

(** The value without leading white space; the scheme a reference starts with. *)
Definition trimmed (v w : str) : Prop :=
  exists ws rest, v = encode (ws ++ rest) /\ w = encode rest /\ forallb scalar (ws ++ rest) = true /\
    forallb is_uspace ws = true /\ match rest with c :: _ => is_uspace c = false | [] => True end.
Definition scheme_of (U : unicode) (w x : str) : Prop :=
  exists c cs rest, x = encode (c :: cs) /\ w = encode ((c :: cs) ++ 58%N :: rest) /\
    forallb scalar ((c :: cs) ++ 58%N :: rest) = true /\ is_word U c = true /\
    Forall (fun c => is_word U c = true \/ In c (bs "+.-")) cs.
(** What a reference points to, before cleaning: itself if it has a web or file
    scheme, the document for an anchor, the protocol of the document, or what the
    context makes of it. References with another scheme point nowhere. *)
Inductive points_to (U : unicode) (resolve : str -> str -> res (option str)) (uri base v : str) : str -> Prop :=
| to_absolute w x : trimmed v w -> scheme_of U w x -> In (lower U x) [bs "http"; bs "https"; bs "file"] ->
    points_to U resolve uri base v w
| to_anchor w : trimmed v (bs "#" ++ w) -> points_to U resolve uri base v (uri ++ bs "#" ++ w)
| to_protocol w : trimmed v (bs "//" ++ w) ->
    points_to U resolve uri base v
      ((if is_prefix (bs "https://") uri then bs "https:" else bs "http:") ++ bs "//" ++ w)
| to_resolved w r : trimmed v w -> (forall x, ~ scheme_of U w x) ->
    is_prefix (bs "#") w = false -> is_prefix (bs "//") w = false ->
    resolve w base = Ok (Some r) -> points_to U resolve uri base v r.
Definition linkable (U : unicode) (v : str) : Prop :=
  ~ javascript_url v /\ ~ has_line_break v /\ has_word U v.

Inductive subseq {A} : list A -> list A -> Prop :=
| sub_nil : subseq [] []
| sub_skip x l m : subseq l m -> subseq l (x :: m)
| sub_keep x l m : subseq l m -> subseq (x :: l) (x :: m).

Section Spec.
Variables (U : unicode) (d : textdoc) (cs : bool).
Let t := d_text d.
Definition tk_name (k : token) : str := fold_name U cs (tk_text t k).
(** [k] is the value of a path attribute, [v] without its quotes; [before] are the
    tokens in front of it. *)
Definition path_value (before : list token) (k : token) (v : str) : Prop :=
  tk_type k = AttributeValue /\ stripped (tk_text t k) v /\
  exists kt ka, last_tag_of before kt /\ value_name before ka /\
    is_path_attribute (tk_name kt) (tk_name ka) = true.
(** A link comes from the token [k] among the tokens [l]. *)
Definition link_from (l : list token) (k : token) (r : range) : Prop :=
  exists l1 l2 v a b, l = l1 ++ k :: l2 /\ path_value l1 k v /\
    value_span t k v a b /\ r = range_at d a b /\
    ~ javascript_url v /\ ~ has_line_break v /\ has_word U v.
(** [k] is the value of an [id] attribute, [x] without its quotes. *)
Definition id_value (before : list token) (k : token) (x : str) : Prop :=
  tk_type k = AttributeValue /\ stripped (tk_text t k) x /\
  exists kt ka, last_tag_of before kt /\ value_name before ka /\ tk_name ka = bs "id".
Definition last_id (l : list token) (x : str) (o : nat) : Prop :=
  exists l1 k l2, l = l1 ++ k :: l2 /\ id_value l1 k x /\ tk_off k = o /\
    forall m1 k' m2, l2 = m1 ++ k' :: m2 -> ~ id_value (l1 ++ k :: m1) k' x.
End Spec.

(** ** The regular expressions *)
Lemma reg_ref_word U v : reg_ref U v = true <-> has_word U v.
Proof. unfold reg_ref. rewrite existsb_exists. reflexivity. Qed.
Lemma has_break_iff v : has_break v = true <-> has_line_break v.
Proof.
  unfold has_break, has_line_break. rewrite existsb_exists. split.
  - intros (c & I & H). assert (c = 10%N \/ c = 13%N) by lia. destruct H0; subst; auto.
  - intros [I|I]; eexists; split; eauto; reflexivity.
Qed.
Lemma letter_ci_iff l c : ascii_lower_letter l = true -> letter_ci l c = true <-> same_letter l c.
Proof.
  unfold letter_ci, same_letter, ascii_lower_letter. intros H.
  unfold ascii_lower, ascii_upper_letter. destruct ((65 <=? c)%N && (c <=? 90)%N) eqn:E; lia.
Qed.
Lemma prefix_ci_iff p s : forallb ascii_lower_letter p = true -> prefix_ci (p ++ [58%N]) s = true <->
  exists js rest, s = js ++ [58%N] ++ rest /\ Forall2 same_letter p js.
Proof.
  revert s. induction p as [|l p IH]; intros s H.
  - cbn [app prefix_ci]. destruct s as [|c s].
    + split; [discriminate|]. intros (js & rest & E & F). inversion F; subst. discriminate.
    + rewrite andb_true_r. split.
      * intros L. exists [], s. split; [|constructor].
        unfold letter_ci, ascii_lower, ascii_upper_letter in L. cbn [app].
        destruct ((65 <=? c)%N && (c <=? 90)%N) eqn:E; f_equal; lia.
      * intros (js & rest & E & F). inversion F; subst. inv E. reflexivity.
  - cbn [forallb] in H. apply andb_prop in H as [H1 H2]. cbn [app prefix_ci]. destruct s as [|c s].
    + split; [discriminate|]. intros (js & rest & E & F). inversion F; subst. discriminate.
    + rewrite andb_true_iff, letter_ci_iff by auto. rewrite (IH s H2). split.
      * intros [L (js & rest & -> & F)]. exists (c :: js), rest. split; [reflexivity|]. constructor; auto.
      * intros (js & rest & E & F). inversion F; subst. cbn [app] in E. inv E. split; [auto|]. exists l', rest. auto.
Qed.
Lemma take_while_app p a b : forallb p a = true -> match b with c :: _ => p c = false | [] => True end ->
  take_while p (a ++ b) = a.
Proof.
  induction a as [|x a IH]; cbn [app forallb take_while]; intros H B.
  - destruct b as [|c b]; auto. cbn. rewrite B. auto.
  - apply andb_prop in H as [-> H]. rewrite IH; auto.
Qed.
Lemma encode_inj a b : forallb scalar a = true -> forallb scalar b = true -> encode a = encode b -> a = b.
Proof. intros A B E. rewrite <- (decode_encode a), <- (decode_encode b), E; auto. Qed.
Lemma reg_javascript_iff v : Utf8 v -> reg_javascript v = true <-> javascript_url v \/ has_line_break v.
Proof.
  intros (c & S & ->). unfold reg_javascript. rewrite orb_true_iff, has_break_iff.
  enough (E : prefix_ci (bs "javascript:") (decode (skipn (char_run is_uspace (encode c)) (encode c))) = true <->
              javascript_url (encode c)) by tauto.
  rewrite char_run_encode by auto.
  destruct (take_while_split is_uspace c) as (r & R & NR).
  assert (ER : skipn (length (encode (take_while is_uspace c))) (encode c) = encode r).
  { rewrite R at 2. rewrite encode_app, skipn_app, skipn_all, Nat.sub_diag. auto. }
  assert (SR : forallb scalar r = true) by (rewrite R, forallb_app in S; apply andb_prop in S; tauto).
  rewrite ER, decode_encode by auto.
  change (bs "javascript:") with (bs "javascript" ++ [58%N]). rewrite prefix_ci_iff by reflexivity.
  unfold javascript_url. split.
  - intros (js & rest & E & F). exists (take_while is_uspace c), js, rest. rewrite <- E, <- R.
    repeat split; auto. apply take_while_forall.
  - intros (ws & js & rest & E & S' & W & F). apply encode_inj in E; auto.
    exists js, rest. split; auto. rewrite E in R.
    assert (T : take_while is_uspace c = ws).
    { rewrite E. apply take_while_app; auto. change (bs "javascript") with (106%N :: bs "avascript") in F.
      inversion F; subst. cbn [app]. destruct H1 as [-> |[-> |[? _]]]; [reflexivity|reflexivity|discriminate]. }
    rewrite <- E, T in R. rewrite E in R. apply app_inv_head in R. auto.
Qed.

(** ** The loop as a function of the tokens *)
Section L.
Variables (U : unicode) (Lb : uri_lib) (resolve : str -> str -> res (option str)) (uri : str).
Variables (d : textdoc) (cs : bool).
Hypothesis HD : textdoc_ok d.
Let t := d_text d.
Let HU : Utf8 t := do_utf8 d HD.
Notation path_value := (path_value U d cs).
Notation link_from := (link_from U d cs).
Notation id_value := (id_value U d cs).
Notation last_id := (last_id U d cs).
Notation tk_name := (tk_name U d cs).

Definition tlink (k : token) (s : lstate) : res lstate :=
  let x := tk_text t k in
  match tk_type k with
  | StartTag =>
      let x := fold_name U cs x in
      Ok (mkLS (l_links s) (l_attr s) (Some x) (l_in_base s || beq x (bs "base")) (l_base s) (l_ids s))
  | AttributeName =>
      Ok (mkLS (l_links s) (Some (fold_name U cs x)) (l_tag s) (l_in_base s) (l_base s) (l_ids s))
  | AttributeValue =>
      match l_tag s, l_attr s with
      | Some tag, Some attr =>
          if is_path_attribute tag attr then
            if l_in_base s then
              do b <- (match l_base s with
                       | Some b => Ok (Some b)
                       | None =>
                           do b <- normalize_ref x;
                           match b with
                           | [] => Ok (Some [])
                           | _ => do r <- resolve b uri;
                                  Ok (Some match r with Some x => x | None => b end)
                           end
                       end);
              Ok (mkLS (l_links s) None (l_tag s) false b (l_ids s))
            else
              do lk <- create_link U Lb resolve uri d x (tk_off k) (tk_end k) (l_base s);
              Ok (mkLS (l_links s ++ match lk with Some k => [k] | None => [] end)
                       None (l_tag s) false (l_base s) (l_ids s))
          else if beq attr (bs "id") then
            do id <- normalize_ref x;
            Ok (mkLS (l_links s) (l_attr s) (l_tag s) (l_in_base s) (l_base s) ((id, tk_off k) :: l_ids s))
          else Ok s
      | _, _ => Ok s
      end
  | _ => Ok s
  end.
Lemma link_step_tok sc s : tok_bd t (token_of sc) ->
  link_step U Lb resolve uri d cs sc s = tlink (token_of sc) s.
Proof.
  intros H. unfold link_step, tlink, tk_text, token_text. unfold tok_bd in H.
  cbn [token_of tk_type tk_off tk_end] in *. fold t.
  destruct (tok sc); auto; unfold text_token in H;
    (destruct H as (A & B & C); [tauto|]); rewrite (slice_bd _ _ _) by (auto; lia); cbn [bind]; auto.
Qed.
Definition link_fold := foldm lstate tlink.
Lemma links_tokens s : link_loop U Lb resolve uri d cs (scan_fuel t) (scanner_new 0 WithinContent) lstate0 = Ok s ->
  exists l, fold_tokens U t cs = Ok l /\ link_fold l lstate0 = Ok s.
Proof.
  intros H.
  assert (EQ : forall fuel sc s, link_loop U Lb resolve uri d cs fuel sc s =
    match fuel with
    | 0 => OutOfFuel
    | Datatypes.S fuel' =>
        do sc' <- scan U t false cs sc;
        if token_eqb (tok sc') EOS then Ok s
        else do s' <- link_step U Lb resolve uri d cs sc' s; link_loop U Lb resolve uri d cs fuel' sc' s'
    end) by (intros [|fuel] sc' s'; reflexivity).
  destruct (loop_ok_tokens U t cs _ _ _ EQ _ _ _ _ H) as (l & f & T).
  exists l. split; [unfold fold_tokens; unfold scan_fuel in T; rewrite T; reflexivity|].
  rewrite (loop_tokens U t cs HU _ _ tlink link_step_tok _ EQ _ _ _ _ _ (or_introl (good_start d HD)) T) in H.
  exact H.
Qed.

(** *** Values *)
Lemma span_facts k v a b : tok_bd t k -> tk_type k = AttributeValue -> value_span t k v a b ->
  Bd t a /\ Bd t b /\ a <= b /\ sub t a b = v /\ tk_off k <= a /\ b <= tk_end k.
Proof.
  intros HB T H. destruct HB as (B1 & B2 & B3); [right; right; right; auto|].
  pose proof (Bd_le _ _ B2) as BL. unfold tk_text in H.
  pose proof (sub_length t (tk_off k) (tk_end k) ltac:(lia) BL) as SL.
  inversion H; subst.
  - unfold tk_text in H1. rewrite H1 in SL. cbn [length] in SL. rewrite app_length in SL. cbn [length] in SL.
    assert (QL : (q < 128)%N) by (destruct H0; subst; reflexivity).
    assert (N1 : nth_error t (tk_off k) = Some q).
    { rewrite <- (Nat.add_0_r (tk_off k)), <- (sub_nth_error t (tk_off k) (tk_end k)), H1 by lia. reflexivity. }
    assert (N2 : nth_error t (tk_end k - 1) = Some q).
    { replace (tk_end k - 1) with (tk_off k + Datatypes.S (length v)) by lia.
      rewrite <- (sub_nth_error t (tk_off k) (tk_end k)), H1 by lia. cbn [nth_error].
      rewrite nth_error_app2, Nat.sub_diag by lia. reflexivity. }
    split; [eapply Bd_after_ascii; eauto|]. split; [eapply Bd_at_ascii; eauto|]. split; [lia|].
    split; [|lia].
    replace (sub t (tk_off k + 1) (tk_end k - 1)) with (sub (sub t (tk_off k) (tk_end k)) 1 (Datatypes.S (length v))).
    + rewrite H1. unfold sub. cbn [skipn]. replace (Datatypes.S (length v) - 1) with (length v) by lia.
      rewrite firstn_app, Nat.sub_diag, firstn_all. cbn. apply app_nil_r.
    + rewrite sub_sub by lia. f_equal. lia.
  - split; auto. split; auto. split; [lia|]. split; [auto|lia].
Qed.
Lemma span_exists k v : stripped (tk_text t k) v -> exists a b, value_span t k v a b.
Proof.
  intros [(q & Q & E)|[N ->]]; do 2 eexists; [eapply span_quoted|eapply span_plain]; eauto.
Qed.
Lemma span_unique k v a b a' b' : value_span t k v a b -> value_span t k v a' b' -> a = a' /\ b = b'.
Proof.
  intros [q Q E|N E] [q' Q' E'|N' E']; auto; exfalso; [apply N'|apply N]; eexists _, v; eauto.
Qed.
Lemma span_stripped k v a b : value_span t k v a b -> stripped (tk_text t k) v.
Proof. intros [q Q E|N E]; [left; eauto|right; auto]. Qed.

Lemma create_link_facts k base lk : tok_bd t k -> tk_type k = AttributeValue ->
  create_link U Lb resolve uri d (tk_text t k) (tk_off k) (tk_end k) base = Ok (Some lk) ->
  exists v a b, stripped (tk_text t k) v /\ value_span t k v a b /\ lk_range lk = range_at d a b /\
    ~ javascript_url v /\ ~ has_line_break v /\ has_word U v.
Proof.
  intros HB T H. unfold create_link in H. apply bind_ok in H as (v & NR & H).
  apply C38_strip in NR as [ST NL].
  destruct (negb (validate_ref U v)) eqn:V; [discriminate|]. apply negb_false_iff in V.
  apply bind_ok in H as ([so eo] & SP & H). apply bind_ok in H as (w & W & H).
  destruct (span_exists _ _ ST) as (a & b & VS).
  destruct (span_facts _ _ _ _ HB T VS) as (BA & BB & AB & SB & _ & _).
  assert (SE : so = a /\ eo = b).
  { destruct VS as [q Q E|N E].
    - rewrite E in SP. cbn [length] in SP. rewrite app_length in SP. cbn [length] in SP.
      replace (length v <? _) with true in SP by (symmetry; apply Nat.ltb_lt; lia).
      apply bind_ok in SP as (e & U1 & SP). unfold usub in U1. destruct (1 <=? tk_end k); [|discriminate]. inv U1.
      inv SP. auto.
    - rewrite E, Nat.ltb_irrefl in SP. inv SP. auto. }
  destruct SE; subst so eo.
  destruct w as [w|]; [|discriminate]. apply bind_ok in H as (tg & _ & H). apply Ok_inj, Some_inj in H. subst lk. cbn [lk_range].
  exists v, a, b. split; auto. split; auto. split; auto.
  assert (UV : Utf8 v) by (rewrite <- SB; apply Bd_sub; auto).
  unfold get_workspace_url in W. destruct (reg_javascript v) eqn:J; [discriminate|].
  assert (NJ : ~ (javascript_url v \/ has_line_break v)) by (rewrite <- reg_javascript_iff by auto; congruence).
  split; [tauto|]. split; [tauto|]. apply reg_ref_word. unfold validate_ref in V. destruct v; [discriminate|auto].
Qed.

(** *** The invariant *)
Lemma split_eq (l1 l2 m1 m2 : list token) k : l1 ++ k :: l2 = m1 ++ m2 ->
  (exists r, m1 = l1 ++ k :: r /\ l2 = r ++ m2) \/ (exists r, m2 = r ++ k :: l2 /\ l1 = m1 ++ r).
Proof.
  revert m1. induction l1 as [|x l1 IH]; intros m1 E.
  - destruct m1 as [|y m1]; cbn [app] in *.
    + right. exists []. auto.
    + inv E. left. exists m1. auto.
  - destruct m1 as [|y m1]; cbn [app] in *.
    + right. exists (x :: l1). subst m2. auto.
    + inv E. destruct (IH _ H1) as [(r & -> & ->)|(r & -> & ->)]; [left|right]; eauto.
Qed.
Lemma last_tag_unique l k k' : last_tag_of l k -> last_tag_of l k' -> k = k'.
Proof.
  intros (l1 & l2 & -> & T & F) (m1 & m2 & E & T' & F').
  apply split_eq in E as [(r & -> & ->)|([|x r] & E & ->)].
  - exfalso. rewrite Forall_forall in F. apply (F k'); auto. apply in_or_app. right. left. auto.
  - inv E. auto.
  - inv E. exfalso. rewrite Forall_forall in F'. apply (F' k); auto. apply in_or_app. right. left. auto.
Qed.
Lemma last_tag_snoc l k kt : last_tag_of (l ++ [k]) kt <->
  (tk_type k = StartTag /\ kt = k) \/ (tk_type k <> StartTag /\ last_tag_of l kt).
Proof.
  split.
  - intros (l1 & l2 & E & T & F). symmetry in E. apply split_eq in E as [(r & -> & ->)|(r & E & ->)].
    + right. apply Forall_app in F as [F1 F2]. inversion F2; subst. split; auto. exists l1, r. auto.
    + destruct r as [|x r]; [|destruct r; discriminate]. inv E. auto.
  - intros [[T ->]|[T (l1 & l2 & -> & T' & F)]].
    + exists l, []. auto.
    + exists l1, (l2 ++ [k]). rewrite <- app_assoc. split; auto. split; auto. apply Forall_app. auto.
Qed.
Lemma value_name_snoc l k ka : value_name (l ++ [k]) ka <->
  (tk_type k = AttributeName /\ ka = k) \/ ((tk_type k = Whitespace \/ tk_type k = DelimiterAssign) /\ value_name l ka).
Proof.
  split.
  - intros (l1 & l2 & E & T & F). symmetry in E. apply split_eq in E as [(r & -> & ->)|(r & E & ->)].
    + right. apply Forall_app in F as [F1 F2]. inversion F2; subst. split; auto. exists l1, r. auto.
    + destruct r as [|x r]; [|destruct r; discriminate]. inv E. auto.
  - intros [[T ->]|[T (l1 & l2 & -> & T' & F)]].
    + exists l, []. auto.
    + exists l1, (l2 ++ [k]). rewrite <- app_assoc. split; auto. split; auto. apply Forall_app. auto.
Qed.
Lemma value_name_unique l k k' : value_name l k -> value_name l k' -> k = k'.
Proof.
  intros (l1 & l2 & -> & T & F) (m1 & m2 & E & T' & F').
  apply split_eq in E as [(r & -> & ->)|([|x r] & E & ->)].
  - exfalso. apply Forall_app in F as [_ F]. inversion F; subst. destruct H1; congruence.
  - inv E. auto.
  - inv E. exfalso. apply Forall_app in F' as [_ F']. inversion F'; subst. destruct H1; congruence.
Qed.
Lemma subseq_snoc {A} (l m : list A) x : subseq l m -> subseq l (m ++ [x]).
Proof. induction 1; cbn [app]; constructor; auto; constructor. Qed.
Lemma subseq_snoc2 {A} (l m : list A) x : subseq l m -> subseq (l ++ [x]) (m ++ [x]).
Proof. induction 1; cbn [app]; constructor; auto; constructor. Qed.

(** One id value: the last wins. *)
Lemma last_id_snoc l k x o : last_id (l ++ [k]) x o <->
  (id_value l k x /\ tk_off k = o) \/ (~ id_value l k x /\ last_id l x o).
Proof.
  split.
  - intros (l1 & k1 & l2 & E & I & O & N). symmetry in E. apply split_eq in E as [(r & -> & ->)|(r & E & ->)].
    + right. split.
      * apply (N r k []). auto.
      * exists l1, k1, r. split; auto. split; auto. split; auto. intros m1 k' m2 ->. apply (N m1 k' (m2 ++ [k])).
        rewrite <- app_assoc. auto.
    + destruct r as [|y r]; [|destruct r; discriminate]. inv E. rewrite app_nil_r in I. auto.
  - intros [[I O]|[NI (l1 & k1 & l2 & -> & I & O & N)]].
    + exists l, k, []. split; auto. split; auto. split; auto. intros m1 k' m2 E. destruct m1; discriminate.
    + exists l1, k1, (l2 ++ [k]). rewrite <- app_assoc. split; auto. split; auto. split; auto.
      intros m1 k' m2 E. symmetry in E. apply split_eq in E as [(r & -> & ->)|(r & E & ->)].
      * apply (N m1 k' r). auto.
      * destruct r as [|y r]; [|destruct r; discriminate]. inv E. rewrite app_nil_r. auto.
Qed.

Lemma Forall2_map_impl {A B} (P Q : A -> B -> Prop) l m : (forall a b, P a b -> Q a b) -> Forall2 P l m -> Forall2 Q l m.
Proof. intros H. induction 1; constructor; auto. Qed.

Record LI (done : list token) (s : lstate) : Prop := {
  li_tag : match l_tag s with
           | Some x => exists kt, last_tag_of done kt /\ x = tk_name kt
           | None => forall kt, ~ last_tag_of done kt
           end;
  li_attr : forall ka, value_name done ka -> l_attr s = Some (tk_name ka);
  li_links : exists ks, subseq ks done /\
    Forall2 (fun k lk => link_from done k (lk_range lk) /\ exists base,
       create_link U Lb resolve uri d (tk_text t k) (tk_off k) (tk_end k) base = Ok (Some lk)) ks (l_links s);
  li_ids : forall x o, assoc x (l_ids s) = Some o <-> last_id done x o
}.
Lemma link_from_more l m k r : link_from l k r -> link_from (l ++ m) k r.
Proof.
  intros (l1 & l2 & v & a & b & -> & H). exists l1, (l2 ++ m), v, a, b. rewrite <- app_assoc. auto.
Qed.
Lemma links_more done k s : (exists ks, subseq ks done /\
    Forall2 (fun k lk => link_from done k (lk_range lk) /\ exists base,
       create_link U Lb resolve uri d (tk_text t k) (tk_off k) (tk_end k) base = Ok (Some lk)) ks (l_links s)) ->
  exists ks, subseq ks (done ++ [k]) /\
    Forall2 (fun k' lk => link_from (done ++ [k]) k' (lk_range lk) /\ exists base,
       create_link U Lb resolve uri d (tk_text t k') (tk_off k') (tk_end k') base = Ok (Some lk)) ks (l_links s).
Proof.
  intros (ks & S & F). exists ks. split; [apply subseq_snoc; auto|].
  eapply Forall2_map_impl; [|exact F]. intros a b [H1 H2]. split; auto. apply link_from_more; auto.
Qed.
Lemma not_id_more done k x o : (forall x, ~ id_value done k x) -> last_id (done ++ [k]) x o <-> last_id done x o.
Proof. intros N. rewrite last_id_snoc. split; [intros [[H _]|[_ H]]|]; auto. exfalso. eapply N; eauto. Qed.
Lemma id_not_path x : is_path_attribute x (bs "id") = false.
Proof.
  unfold is_path_attribute. change (mem (bs "id") [bs "src"; bs "href"]) with false. cbn [orb].
  assert (F : Forall (fun e => mem (bs "id") (snd e) = false) path_table) by (repeat constructor).
  destruct (assoc x path_table) as [l|] eqn:A; auto.
  revert A F. generalize path_table. induction l0 as [|[k' a] r IH]; cbn [assoc]; [discriminate|].
  intros A F. inversion F; subst. destruct (beq x k'); [inv A; auto|auto].
Qed.

Lemma LI_step done k s s' : LI done s -> tok_bd t k ->
  (tk_type k = AttributeValue -> exists ka, value_name done ka) ->
  tlink k s = Ok s' -> LI (done ++ [k]) s'.
Proof.
  intros [I1 I2 I3 I4] HB VN H. unfold tlink in H.
  assert (LM := links_more done k s I3).
  assert (OTHER : tk_type k <> StartTag -> tk_type k <> AttributeName -> tk_type k <> AttributeValue ->
     s' = s -> LI (done ++ [k]) s').
  { intros N1 N2 N3 ->. split; auto.
    - destruct (l_tag s) as [x|].
      + destruct I1 as (kt & K & ->). exists kt. split; auto. apply last_tag_snoc. auto.
      + intros kt K. apply last_tag_snoc in K as [[? _]|[_ K]]; [congruence|]. eapply I1; eauto.
    - intros ka K. apply value_name_snoc in K as [[? _]|[_ K]]; [congruence|]. auto.
    - intros x o. rewrite I4. symmetry. apply not_id_more. intros y (T & _). congruence. }
  destruct (tk_type k) eqn:T;
    try (apply OTHER; [discriminate|discriminate|discriminate|apply Ok_inj in H; auto]); clear OTHER.
  - (* StartTag *)
    apply Ok_inj in H. subst s'. split; cbn [l_tag l_attr l_links l_ids]; auto.
    + exists k. split; auto. apply last_tag_snoc. auto.
    + intros ka K. apply value_name_snoc in K as [[? _]|[[?|?] K]]; congruence.
    + intros x o. rewrite I4. symmetry. apply not_id_more. intros y (T' & _). congruence.
  - (* AttributeName *)
    apply Ok_inj in H. subst s'. split; cbn [l_tag l_attr l_links l_ids]; auto.
    + destruct (l_tag s) as [x|].
      * destruct I1 as (kt & K & ->). exists kt. split; auto. apply last_tag_snoc. right. split; auto. congruence.
      * intros kt K. apply last_tag_snoc in K as [[? _]|[_ K]]; [congruence|]. eapply I1; eauto.
    + intros ka K. apply value_name_snoc in K as [[_ ->]|[[?|?] K]]; try congruence. reflexivity.
    + intros x o. rewrite I4. symmetry. apply not_id_more. intros y (T' & _). congruence.
  - (* AttributeValue *)
    destruct (VN eq_refl) as (ka & KA). pose proof (I2 _ KA) as EA. rewrite EA in H.
    assert (TAG : match l_tag s with
           | Some x => exists kt, last_tag_of (done ++ [k]) kt /\ x = tk_name kt
           | None => forall kt, ~ last_tag_of (done ++ [k]) kt
           end).
    { destruct (l_tag s) as [x|].
      * destruct I1 as (kt & K & ->). exists kt. split; auto. apply last_tag_snoc. right. split; auto. congruence.
      * intros kt K. apply last_tag_snoc in K as [[? _]|[_ K]]; [congruence|]. eapply I1; eauto. }
    assert (ATTR : forall o, forall ka, value_name (done ++ [k]) ka -> o = Some (tk_name ka)).
    { intros o ka' K. apply value_name_snoc in K as [[? _]|[[?|?] K]]; congruence. }
    assert (NOID : tk_name ka <> bs "id" \/ l_tag s = None -> forall x o, assoc x (l_ids s) = Some o <-> last_id (done ++ [k]) x o).
    { intros NI x o. rewrite I4. symmetry. apply not_id_more. intros y (_ & _ & kt & ka' & K1 & K2 & K3).
      destruct NI as [NI|NI]; [|rewrite NI in I1; eapply I1; eauto].
      apply NI. rewrite (value_name_unique _ _ _ KA K2). auto. }
    destruct (l_tag s) as [tg|] eqn:LT.
    2:{ apply Ok_inj in H. subst s'. split; auto. rewrite LT. auto. }
    destruct (is_path_attribute tg (tk_name ka)) eqn:P.
    + assert (NI : tk_name ka <> bs "id") by (intros E; rewrite E, id_not_path in P; discriminate).
      destruct (l_in_base s).
      * apply bind_ok in H as (b & _ & H). apply Ok_inj in H. subst s'.
        split; cbn [l_tag l_attr l_links l_ids]; auto.
      * apply bind_ok in H as (lk & CL & H). apply Ok_inj in H. subst s'.
        split; cbn [l_tag l_attr l_links l_ids]; auto.
        destruct lk as [lk|]; [|rewrite app_nil_r; auto].
        destruct I3 as (ks & S & F). exists (ks ++ [k]). split; [apply subseq_snoc2; auto|].
        apply Forall2_app.
        -- eapply Forall2_map_impl; [|exact F]. intros a b [H1 H2]. split; auto. apply link_from_more; auto.
        -- constructor; [|constructor]. split; [|eauto].
           destruct (create_link_facts _ _ _ HB T CL) as (v & a & b & F1 & F2 & F3 & F4 & F5 & F6).
           exists done, [], v, a, b. split; auto. split; [|auto].
           split; auto. split; auto. destruct I1 as (kt & K & ->). exists kt, ka. auto.
    + destruct (beq (tk_name ka) (bs "id")) eqn:B.
      * apply beq_eq in B. apply bind_ok in H as (id & NR & H). apply Ok_inj in H. subst s'.
        split; cbn [l_tag l_attr l_links l_ids]; auto.
        apply C38_strip in NR as [NR _].
        assert (IV : forall x, id_value done k x <-> x = id).
        { intros x. split.
          - intros (_ & SX & _). eapply C38_unique; eauto.
          - intros ->. split; auto. split; auto. destruct I1 as (kt & K & ->). exists kt, ka. auto. }
        intros x o. rewrite last_id_snoc, IV. cbn [assoc]. destruct (beq x id) eqn:BX.
        -- apply beq_eq in BX. subst. split; [intros E; inv E; auto|]. intros [[_ ->]|[N _]]; [auto|congruence].
        -- apply beq_neq in BX. rewrite I4. tauto.
      * apply beq_neq in B. apply Ok_inj in H. subst s'. split; auto. rewrite LT. auto.
Qed.
Lemma LI_start : LI [] lstate0.
Proof.
  split; cbn.
  - intros kt (l1 & l2 & E & _). destruct l1; discriminate.
  - intros ka (l1 & l2 & E & _). destruct l1; discriminate.
  - exists []. split; constructor.
  - split; [discriminate|]. intros (l1 & k & l2 & E & _). destruct l1; discriminate.
Qed.
Lemma LI_fold l : forall done s s', LI done s -> Forall (tok_bd t) l ->
  (forall l1 k l2, l = l1 ++ k :: l2 -> tk_type k = AttributeValue -> exists ka, value_name (done ++ l1) ka) ->
  link_fold l s = Ok s' -> LI (done ++ l) s'.
Proof.
  induction l as [|k l IH]; intros done s s' I F VN H.
  - cbn in H. inv H. rewrite app_nil_r. auto.
  - unfold link_fold in H. cbn [foldm] in H. apply bind_ok in H as (s1 & S1 & H). inversion F; subst.
    replace (done ++ k :: l) with ((done ++ [k]) ++ l) by (rewrite <- app_assoc; auto).
    apply (IH _ s1); auto.
    + eapply LI_step; eauto. intros T. specialize (VN [] k l eq_refl T). rewrite app_nil_r in VN. auto.
    + intros l1 k' l2 -> T. rewrite <- app_assoc. apply (VN (k :: l1) k' l2); auto.
Qed.
Lemma fold_tokens_value_name l : fold_tokens U t cs = Ok l ->
  Forall (tok_bd t) l /\
  (forall l1 k l2, l = l1 ++ k :: l2 -> tk_type k = AttributeValue -> exists ka, value_name l1 ka).
Proof.
  unfold fold_tokens. intros H. apply bind_ok in H as ([l' f] & T & H). inv H. split.
  - eapply tokens_bd; eauto. left. apply (good_start d HD).
  - intros l1 k l2 E TK. apply (tokens_value_name U t cs HU _ [] _ _ _ T) with (k := k) (l2 := l2); auto.
    cbn. intros [?|?]; discriminate.
Qed.

(** *** Targets *)
Lemma trim_start_trimmed v : Utf8 v -> trimmed v (trim_start v).
Proof.
  intros (c & S & ->). unfold trim_start. rewrite char_run_encode by auto.
  destruct (take_while_split is_uspace c) as (r & R & NR).
  assert (ER : skipn (length (encode (take_while is_uspace c))) (encode c) = encode r).
  { rewrite R at 2. rewrite encode_app, skipn_app, skipn_all, Nat.sub_diag. auto. }
  rewrite ER. exists (take_while is_uspace c), r. rewrite <- R. split; auto. split; auto. split; auto.
  split; [apply take_while_forall|]. destruct r; auto. eapply NR; eauto.
Qed.
Lemma trimmed_unique v w w' : trimmed v w -> trimmed v w' -> w = w'.
Proof.
  intros (ws & r & -> & -> & S & W & H) (ws' & r' & E & -> & S' & W' & H').
  apply encode_inj in E; auto.
  assert (T : take_while is_uspace (ws ++ r) = ws) by (apply take_while_app; auto).
  assert (T' : take_while is_uspace (ws' ++ r') = ws') by (apply take_while_app; auto).
  rewrite E, T' in T. subst ws'. apply app_inv_head in E. subst. auto.
Qed.
Lemma trimmed_utf8 v w : trimmed v w -> Utf8 w.
Proof.
  intros (ws & r & -> & -> & S & _). exists r. rewrite forallb_app in S. apply andb_prop in S as [_ S]. auto.
Qed.
Lemma trimmed_idem v w : trimmed v w -> trim_start w = w.
Proof.
  intros (ws & r & -> & -> & S & _ & H). rewrite forallb_app in S. apply andb_prop in S as [_ S].
  unfold trim_start. rewrite char_run_encode by auto.
  destruct r as [|c r]; auto. cbn [take_while]. rewrite H. auto.
Qed.
Lemma schema_char_iff c : is_schema_char U c = true <-> is_word U c = true \/ In c (bs "+.-").
Proof.
  unfold is_schema_char. rewrite !orb_true_iff, !N.eqb_eq. cbn. intuition.
Qed.
Lemma reg_schema_iff w x : Utf8 w -> reg_schema U w = Some x <-> scheme_of U w x.
Proof.
  intros (c & S & ->). unfold reg_schema. destruct c as [|c0 c].
  { cbn. split; [discriminate|]. intros (a & b & r & _ & E & S' & _). apply (encode_inj []) in E; auto. discriminate. }
  assert (S0 := S). cbn [forallb] in S0. apply andb_prop in S0 as [S1 S2].
  rewrite decode1_encode by auto.
  destruct (is_word U c0) eqn:W.
  2:{ split; [discriminate|]. intros (a & b & r & _ & E & S' & W' & _). apply encode_inj in E; auto. inv E. congruence. }
  rewrite char_run_encode by auto.
  destruct (take_while_split (is_schema_char U) (c0 :: c)) as (r & R & NR).
  assert (F0 := take_while_forall (is_schema_char U) (c0 :: c)).
  remember (take_while (is_schema_char U) (c0 :: c)) as a eqn:A.
  assert (A0 : exists a', a = c0 :: a').
  { subst a. cbn [take_while]. unfold is_schema_char at 1. rewrite W. cbn [orb]. eauto. }
  destruct A0 as (a' & ->). rewrite R in S. rewrite forallb_app in S. apply andb_prop in S as [SA SR].
  rewrite R, encode_app.
  rewrite nth_error_app2, Nat.sub_diag by lia.
  assert (COLON : forall r0, nth_error (encode r0) 0 = Some 58%N -> forallb scalar r0 = true -> exists r', r0 = 58%N :: r').
  { intros [|y r'] N S; [discriminate|]. cbn [forallb] in S. apply andb_prop in S as [S _].
    rewrite encode_cons in N. apply encode1_shape in S. destruct S; subst; cbn in N; inv N; try lia. eauto. }
  split.
  - intros H. destruct (nth_error (encode r) 0) as [y|] eqn:N; [|discriminate].
    destruct (y =? 58)%N eqn:Y; [|discriminate]. apply N.eqb_eq in Y. subst y. apply Some_inj in H.
    destruct (COLON _ N SR) as (r' & ->).
    exists c0, a', r'. split.
    { rewrite <- H. rewrite firstn_app, Nat.sub_diag, firstn_all. cbn [firstn]. rewrite app_nil_r. auto. }
    split; [rewrite encode_app; auto|]. split; [rewrite forallb_app, SA, SR; auto|]. split; auto.
    cbn [forallb] in F0. apply andb_prop in F0 as [_ F0]. rewrite forallb_forall in F0.
    apply Forall_forall. intros z Z. apply schema_char_iff. auto.
  - intros (b0 & b & r' & -> & E & S' & W' & F). rewrite <- encode_app in E.
    apply encode_inj in E; auto; [|rewrite forallb_app, SA, SR; auto].
    assert (T : take_while (is_schema_char U) ((b0 :: b) ++ 58%N :: r') = b0 :: b).
    { apply take_while_app; [|reflexivity]. cbn [forallb]. unfold is_schema_char at 1. rewrite W'. cbn [orb andb].
      apply forallb_forall. intros z Z. rewrite Forall_forall in F. apply schema_char_iff. auto. }
    rewrite R, E, T in A. rewrite <- A in E. apply app_inv_head in E. subst r.
    rewrite encode_cons. change (encode1 58) with [58%N]. cbn [app nth_error]. rewrite N.eqb_refl, A.
    rewrite firstn_app, Nat.sub_diag, firstn_all. cbn [firstn]. rewrite app_nil_r. auto.
Qed.
Lemma scheme_first w x : scheme_of U w x -> is_prefix (bs "#") w = false /\ is_prefix (bs "//") w = false.
Proof.
  intros (c & l & r & _ & -> & S & W & _). cbn [app]. rewrite encode_cons.
  cbn [app forallb] in S. apply andb_prop in S as [S _]. apply encode1_shape in S.
  assert (c <> 35%N /\ c <> 47%N).
  { split; intros ->; vm_compute in W; discriminate. }
  assert (P : forall p q z, (p < 128)%N -> is_prefix (p :: q) (encode1 c ++ z) = true -> c = p).
  { intros p q z L0 H0. destruct S; cbn [app is_prefix] in H0; lia. }
  split.
  - destruct (is_prefix _ _) eqn:E; auto. apply (P 35%N []) in E; [|reflexivity]. lia.
  - destruct (is_prefix _ _) eqn:E; auto. apply (P 47%N [47%N]) in E; [|reflexivity]. lia.
Qed.


Lemma ws_url v base w : Utf8 v -> get_workspace_url U resolve uri v base = Ok (Some w) ->
  ~ javascript_url v /\ ~ has_line_break v /\
  points_to U resolve uri (match base with Some b => b | None => uri end) v w.
Proof.
  intros UV H. unfold get_workspace_url in H. destruct (reg_javascript v) eqn:J; [discriminate|].
  assert (NJ : ~ (javascript_url v \/ has_line_break v)) by (rewrite <- reg_javascript_iff by auto; congruence).
  split; [tauto|]. split; [tauto|].
  assert (TR := trim_start_trimmed _ UV). assert (UT := trimmed_utf8 _ _ TR).
  set (x := trim_start v) in *.
  destruct (reg_schema U x) as [y|] eqn:S.
  - apply reg_schema_iff in S; auto.
    destruct (_ || _ || _) eqn:K; [|discriminate]. apply Ok_inj, Some_inj in H; subst w. eapply to_absolute; eauto.
    rewrite !orb_true_iff, !beq_eq in K. cbn [In]. intuition.
  - destruct (is_prefix (bs "#") x) eqn:P1.
    + apply Ok_inj, Some_inj in H; subst w. destruct x as [|c x']; [discriminate|]. change ((35 =? c)%N && true = true) in P1.
      assert (c = 35%N) by lia. subst c. change (35%N :: x') with (bs "#" ++ x'). apply to_anchor. exact TR.
    + destruct (is_prefix (bs "//") x) eqn:P2.
      * apply Ok_inj, Some_inj in H; subst w. rewrite (trimmed_idem _ _ TR). destruct x as [|c [|c' x']]; try discriminate.
        { change ((47 =? c)%N && false = true) in P2. lia. }
        change ((47 =? c)%N && ((47 =? c')%N && true) = true) in P2.
        assert (c = 47%N /\ c' = 47%N) as [-> ->] by lia.
        change (47%N :: 47%N :: x') with (bs "//" ++ x').
        replace ((if is_prefix (bs "https://") uri then bs "https" else bs "http") ++ bs ":" ++ bs "//" ++ x')
          with ((if is_prefix (bs "https://") uri then bs "https:" else bs "http:") ++ bs "//" ++ x')
          by (destruct (is_prefix _ uri); reflexivity).
        apply to_protocol. exact TR.
      * eapply to_resolved; eauto. intros y Y. apply reg_schema_iff in Y; auto. congruence.
Qed.
Lemma ws_url_complete v base w : Utf8 v -> ~ javascript_url v -> ~ has_line_break v ->
  points_to U resolve uri (match base with Some b => b | None => uri end) v w ->
  get_workspace_url U resolve uri v base = Ok (Some w).
Proof.
  intros UV NJ NB P. unfold get_workspace_url.
  destruct (reg_javascript v) eqn:J; [apply reg_javascript_iff in J; tauto|].
  assert (TR := trim_start_trimmed _ UV). assert (UT := trimmed_utf8 _ _ TR).
  set (x := trim_start v) in *.
  destruct P as [y z T S I|y T|y T|y r T NS P1 P2 R].
  - rewrite <- (trimmed_unique _ _ _ TR T) in *.
    rewrite (proj2 (reg_schema_iff _ _ UT) S).
    replace (_ || _ || _) with true; auto. symmetry. rewrite !orb_true_iff, !beq_eq. cbn [In] in I. intuition.
  - rewrite (trimmed_unique _ _ _ TR T) in *.
    destruct (reg_schema U (bs "#" ++ y)) as [z|] eqn:S.
    { apply reg_schema_iff in S; auto. apply scheme_first in S as [S _]. discriminate. }
    reflexivity.
  - assert (ID := trimmed_idem _ _ T). rewrite (trimmed_unique _ _ _ TR T) in *.
    destruct (reg_schema U (bs "//" ++ y)) as [z|] eqn:S.
    { apply reg_schema_iff in S; auto. apply scheme_first in S as [_ S]. discriminate. }
    replace (is_prefix (bs "#") (bs "//" ++ y)) with false by reflexivity.
    replace (is_prefix (bs "//") (bs "//" ++ y)) with true by reflexivity.
    rewrite ID. destruct (is_prefix (bs "https://") uri); reflexivity.
  - rewrite <- (trimmed_unique _ _ _ TR T) in *.
    destruct (reg_schema U x) as [z|] eqn:S; [apply reg_schema_iff in S; auto; exfalso; eapply NS; eauto|].
    rewrite P1, P2. exact R.
Qed.

(** *** Completeness of the loop *)
Definition base_tag (k : token) : Prop := tk_type k = StartTag /\ tk_name k = bs "base".
Lemma fold_app l1 : forall l2 s s', link_fold (l1 ++ l2) s = Ok s' ->
  exists s1, link_fold l1 s = Ok s1 /\ link_fold l2 s1 = Ok s'.
Proof.
  induction l1 as [|k l1 IH]; intros l2 s s' H; [exists s; auto|].
  unfold link_fold in *. cbn [app foldm] in *. apply bind_ok in H as (s0 & H0 & H). apply IH in H as (s1 & H1 & H).
  exists s1. rewrite H0. auto.
Qed.
Lemma step_nobase k s s' : tlink k s = Ok s' -> ~ base_tag k -> l_in_base s = false ->
  l_in_base s' = false /\ l_base s' = l_base s.
Proof.
  intros H NB IB. unfold tlink in H. destruct (tk_type k) eqn:T; try (apply Ok_inj in H; subst s'; auto; fail).
  - apply Ok_inj in H. subst s'. cbn [l_in_base l_base]. rewrite IB. split; auto.
    destruct (beq _ _) eqn:E; auto. apply beq_eq in E. exfalso. apply NB. split; auto.
  - destruct (l_tag s) as [tg|]; [|apply Ok_inj in H; subst s'; auto].
    destruct (l_attr s) as [at'|]; [|apply Ok_inj in H; subst s'; auto].
    destruct (is_path_attribute tg at').
    + rewrite IB in H. apply bind_ok in H as (lk & _ & H). apply Ok_inj in H. subst s'. auto.
    + destruct (beq at' (bs "id")); [|apply Ok_inj in H; subst s'; auto].
      apply bind_ok in H as (x & _ & H). apply Ok_inj in H. subst s'. auto.
Qed.
Lemma fold_nobase l : forall s s', link_fold l s = Ok s' -> Forall (fun k => ~ base_tag k) l -> l_in_base s = false ->
  l_in_base s' = false /\ l_base s' = l_base s.
Proof.
  induction l as [|k l IH]; intros s s' H F IB.
  - apply Ok_inj in H. subst. auto.
  - unfold link_fold in H. cbn [foldm] in H. apply bind_ok in H as (s1 & H1 & H). inversion F; subst.
    destruct (step_nobase _ _ _ H1 H3 IB) as [B1 B2]. destruct (IH _ _ H H4 B1) as [C1 C2]. split; congruence.
Qed.
Lemma step_links k s s' : tlink k s = Ok s' -> exists r, l_links s' = l_links s ++ r.
Proof.
  intros H. assert (SAME : s' = s -> exists r, l_links s' = l_links s ++ r) by (intros ->; exists []; rewrite app_nil_r; auto).
  assert (NIL : forall s1, l_links s1 = l_links s -> exists r, l_links s1 = l_links s ++ r)
    by (intros s1 ->; exists []; rewrite app_nil_r; auto).
  unfold tlink in H. destruct (tk_type k) eqn:T; try (apply Ok_inj in H; auto; fail).
  - apply Ok_inj in H. subst s'. apply NIL. auto.
  - apply Ok_inj in H. subst s'. apply NIL. auto.
  - destruct (l_tag s) as [tg|]; [|apply Ok_inj in H; auto].
    destruct (l_attr s) as [at'|]; [|apply Ok_inj in H; auto].
    destruct (is_path_attribute tg at').
    + destruct (l_in_base s).
      * apply bind_ok in H as (b & _ & H). apply Ok_inj in H. subst s'. apply NIL. auto.
      * apply bind_ok in H as (lk & _ & H). apply Ok_inj in H. subst s'. cbn [l_links]. eauto.
    + destruct (beq at' (bs "id")); [|apply Ok_inj in H; auto].
      apply bind_ok in H as (x & _ & H). apply Ok_inj in H. subst s'. apply NIL. auto.
Qed.
Lemma fold_links l : forall s s', link_fold l s = Ok s' -> exists r, l_links s' = l_links s ++ r.
Proof.
  induction l as [|k l IH]; intros s s' H.
  - apply Ok_inj in H. subst. exists []. rewrite app_nil_r. auto.
  - unfold link_fold in H. cbn [foldm] in H. apply bind_ok in H as (s1 & H1 & H).
    apply step_links in H1 as (r & E). apply IH in H as (r' & ->). rewrite E. exists (r ++ r'). apply app_assoc_reverse.
Qed.
Lemma step_complete done k s s' v a b w : LI done s -> tok_bd t k -> tlink k s = Ok s' ->
  path_value done k v -> value_span t k v a b -> linkable U v -> l_in_base s = false ->
  points_to U resolve uri (match l_base s with Some x => x | None => uri end) v w ->
  exists tg, validate_and_clean_uri Lb uri w = Ok tg /\
    l_links s' = l_links s ++ [mkLink (range_at d a b) tg].
Proof.
  intros [I1 I2 _ _] HB H (T & ST & kt & ka & K1 & K2 & PA) VS (NJ & NL & HW) IB PT.
  unfold tlink in H. rewrite T, (I2 _ K2) in H.
  destruct (l_tag s) as [x|]; [|exfalso; eapply I1; eauto]. destruct I1 as (kt' & K1' & ->).
  rewrite (last_tag_unique _ _ _ K1' K1), PA, IB in H. apply bind_ok in H as (lk & CL & H). apply Ok_inj in H. subst s'.
  cbn [l_links]. destruct (span_facts _ _ _ _ HB T VS) as (BA & BB & AB & SB & _ & _).
  assert (UV : Utf8 v) by (rewrite <- SB; apply Bd_sub; auto).
  unfold create_link in CL. apply bind_ok in CL as (v' & NR & CL). apply C38_strip in NR as [ST' _].
  rewrite (C38_unique _ _ _ ST' ST) in *. clear ST' v'.
  assert (V : validate_ref U v = true).
  { unfold validate_ref. destruct v; [|apply reg_ref_word; auto]. destruct HW as (c & [] & _). }
  rewrite V in CL. cbn [negb] in CL. apply bind_ok in CL as ([so eo] & SP & CL).
  rewrite (ws_url_complete _ _ _ UV NJ NL PT) in CL. cbn [bind] in CL. apply bind_ok in CL as (tg & VC & CL).
  apply Ok_inj in CL. subst lk. exists tg. split; auto. do 2 f_equal.
  destruct VS as [q Q E|N E].
  - rewrite E in SP. cbn [length] in SP. rewrite app_length in SP. cbn [length] in SP.
    replace (length v <? _) with true in SP by (symmetry; apply Nat.ltb_lt; lia).
    apply bind_ok in SP as (e & U1 & SP). unfold usub in U1. destruct (1 <=? tk_end k); [|discriminate].
    apply Ok_inj in U1. subst e. inv SP. auto.
  - rewrite E, Nat.ltb_irrefl in SP. inv SP. auto.
Qed.

(** ** C37 *)
Notation find := (find_document_links U Lb resolve uri d cs).
Lemma local_ranges ids l : forall l', local_targets Lb uri d ids l = Ok l' ->
  Forall2 (fun k k' => local_target Lb uri d ids k = Ok k' /\ lk_range k' = lk_range k) l l'.
Proof.
  induction l as [|k l IH]; intros l' H; cbn [local_targets] in H; [inv H; constructor|].
  apply bind_ok in H as (k' & K & H). apply bind_ok in H as (r & R & H). apply Ok_inj in H. subst l'.
  constructor; [|auto]. split; auto. unfold local_target in K. destruct (lk_target k) as [tg|]; [|inv K; auto].
  destruct (is_prefix _ tg); [|inv K; auto].
  destruct (assoc _ ids); [apply bind_ok in K as (x & _ & K)|]; apply Ok_inj in K; subst k'; auto.
Qed.
Lemma find_facts ls : find = Ok ls -> exists l s, fold_tokens U t cs = Ok l /\ link_fold l lstate0 = Ok s /\ LI l s /\
  Forall (tok_bd t) l /\ (forall l1 k l2, l = l1 ++ k :: l2 -> tk_type k = AttributeValue -> exists ka, value_name l1 ka) /\
  Forall2 (fun k k' => local_target Lb uri d (l_ids s) k = Ok k' /\ lk_range k' = lk_range k) (l_links s) ls.
Proof.
  unfold find_document_links. intros H. apply bind_ok in H as (s & S & H). apply links_tokens in S as (l & T & F).
  destruct (fold_tokens_value_name _ T) as [B V]. exists l, s. split; auto. split; auto.
  split; [apply (LI_fold l [] lstate0 s LI_start B V F)|]. split; auto. split; auto. apply local_ranges. auto.
Qed.
(** A prefix of the run. *)
Lemma find_prefix l l1 k l2 s : fold_tokens U t cs = Ok l -> link_fold l lstate0 = Ok s -> l = l1 ++ k :: l2 ->
  exists s1 s2, link_fold l1 lstate0 = Ok s1 /\ LI l1 s1 /\ tlink k s1 = Ok s2 /\ link_fold l2 s2 = Ok s /\ tok_bd t k.
Proof.
  intros T F ->. destruct (fold_tokens_value_name _ T) as [B V].
  apply fold_app in F as (s1 & F1 & F). unfold link_fold in F. cbn [foldm] in F. apply bind_ok in F as (s2 & S2 & F).
  apply Forall_app in B as [B1 B2]. inversion B2; subst.
  exists s1, s2. split; auto. split.
  - apply (LI_fold l1 [] lstate0 s1 LI_start B1); auto. intros m1 k' m2 -> TK. apply (V m1 k' (m2 ++ k :: l2)); auto.
    rewrite <- app_assoc. auto.
  - auto.
Qed.

(** Every link lies on the value, without its quotes, of a path attribute, and one
    that can be followed; distinct links come from distinct values, in order. *)
Theorem C37_on_values : forall ls, find = Ok ls -> exists l ks, fold_tokens U t cs = Ok l /\ subseq ks l /\
  Forall2 (link_from l) ks (map lk_range ls).
Proof.
  intros ls H. apply find_facts in H as (l & s & T & _ & [_ _ (ks & S & F) _] & _ & _ & FL).
  exists l, ks. split; auto. split; auto.
  revert ls FL. induction F as [|k lk ks ls [H _] F IH]; intros ls' FL.
  - inversion FL; subst. constructor.
  - inversion FL as [|? k' ? ls2 [_ R] FL']; subst. cbn [map]. constructor; [rewrite R; auto|apply IH; auto].
    clear -S. remember (k :: ks) as m. induction S; [discriminate| |].
    + apply sub_skip. auto.
    + inv Heqm. apply sub_skip. auto.
Qed.
(** The text under a link is that value. *)
Theorem C37_text : forall ls lk, find = Ok ls -> In lk ls -> exists l1 k l2 v,
  fold_tokens U t cs = Ok (l1 ++ k :: l2) /\ path_value l1 k v /\ linkable U v /\
  text_of d (lk_range lk) = v /\
  tk_off k <= offset_at d (r_start (lk_range lk)) /\ offset_at d (r_end (lk_range lk)) <= tk_end k.
Proof.
  intros ls lk H I. destruct (C37_on_values _ H) as (l & ks & T & S & F).
  apply (in_map lk_range) in I.
  assert (E : exists k, link_from l k (lk_range lk)).
  { clear -F I. induction F; [contradiction|]. destruct I as [<-|I]; eauto. }
  destruct E as (k & l1 & l2 & v & a & b & -> & PV & VS & -> & LK).
  exists l1, k, l2, v. split; auto. split; auto. split; auto.
  destruct (fold_tokens_value_name _ T) as [B _]. apply Forall_app in B as [_ B]. inversion B; subst.
  destruct PV as (TK & _). destruct (span_facts _ _ _ _ H2 TK VS) as (BA & BB & AB & SB & O1 & O2).
  destruct (range_text d a b HD BA BB) as (R1 & R2 & R3). rewrite R1, R2, R3. auto.
Qed.
Lemma subseq_in {A} (l m : list A) x : subseq l m -> In x l -> In x m.
Proof. induction 1; cbn; intuition. Qed.
Lemma subseq_tiles ks l : forall a b, subseq ks l -> tiles a l b ->
  (forall k, In k ks -> a <= tk_off k) /\ StronglySorted (fun k k' => tk_end k <= tk_off k') ks.
Proof.
  intros a b S. revert a. induction S as [|x ks l S IH|x ks l S IH]; intros a T.
  - split; [contradiction|constructor].
  - cbn [tiles] in T. destruct T as (T1 & T2 & T3 & T4). destruct (IH _ T4) as [I1 I2]. split; auto.
    intros k K. specialize (I1 k K). lia.
  - cbn [tiles] in T. destruct T as (T1 & T2 & T3 & T4). destruct (IH _ T4) as [I1 I2]. split.
    + intros k [<-|K]; [lia|]. specialize (I1 k K). lia.
    + constructor; auto. apply Forall_forall. auto.
Qed.
(** Links are not empty, and they do not overlap. *)
Theorem C37_disjoint : forall ls, find = Ok ls ->
  Forall (fun lk => pos_lt (r_start (lk_range lk)) (r_end (lk_range lk))) ls /\
  StronglySorted (fun a b => pos_le (r_end (lk_range a)) (r_start (lk_range b))) ls.
Proof.
  intros ls H. destruct (C37_on_values _ H) as (l & ks & T & S & F).
  destruct (fold_tokens_value_name _ T) as [B _]. rewrite Forall_forall in B.
  assert (TI : tiles 0 l (length t)) by (eapply fold_tokens_facts; eauto).
  destruct (subseq_tiles _ _ _ _ S TI) as [_ SS].
  assert (SP : forall k r, link_from l k r -> exists a b, r = range_at d a b /\ Bd t a /\ Bd t b /\ a < b /\
     tk_off k <= a /\ b <= tk_end k).
  { intros k r (l1 & l2 & v & a & b & -> & (TK & _) & VS & -> & _ & _ & W).
    destruct (span_facts k v a b) as (BA & BB & AB & SB & O1 & O2); auto.
    { apply B. apply in_or_app. right. left. auto. }
    exists a, b. split; auto. split; auto. split; auto. split; auto.
    destruct (Nat.eq_dec a b); [|lia]. exfalso. subst b. unfold sub in SB. rewrite Nat.sub_diag in SB. cbn in SB. subst v.
    destruct W as (c & [] & _). }
  split.
  - apply Forall_forall. intros lk I. apply (in_map lk_range) in I.
    assert (E : exists k, link_from l k (lk_range lk)).
    { clear -F I. induction F; [contradiction|]. destruct I as [<-|I]; eauto. }
    destruct E as (k & E). apply SP in E as (a & b & -> & BA & BB & AB & _). cbn [range_at r_start r_end].
    apply (do_mono _ HD); auto using Bd_boundary. apply Bd_le in BB; auto.
  - revert SS F. clear -SP HD. revert ks. induction ls as [|lk ls IH]; intros ks SS F; [constructor|].
    cbn [map] in F. inversion F as [|k ? ks' ? F1 F2]; subst. inversion SS as [|? ? S1 S2]; subst.
    constructor; [eapply IH; eauto|].
    apply Forall_forall. intros lk' I. apply (in_map lk_range) in I.
    assert (E : exists k', In k' ks' /\ link_from l k' (lk_range lk')).
    { clear -F2 I. induction F2; [contradiction|]. destruct I as [<-|I]; [eexists; split; [left; eauto|auto]|].
      destruct (IHF2 I) as (k' & K1 & K2). exists k'. split; [right|]; auto. }
    destruct E as (k' & IK & F'). rewrite Forall_forall in S2. specialize (S2 _ IK).
    apply SP in F1 as (a & b & -> & BA & BB & AB & O1 & O2). apply SP in F' as (a' & b' & -> & BA' & BB' & AB' & O1' & O2').
    cbn [range_at r_start r_end]. apply pos_mono; auto. lia.
Qed.

(** Completeness, and targets. [cleaned] is what remains of the target. *)
Definition final_target (ids_of : str -> nat -> Prop) (w : str) (o : option str) : Prop :=
  exists tg, validate_and_clean_uri Lb uri w = Ok tg /\
    (forall x, tg = Some x -> is_prefix (uri ++ bs "#") x = false -> o = tg) /\
    (tg = None -> o = None) /\
    (forall h, tg = Some (uri ++ bs "#" ++ h) ->
       (forall p, ids_of h p -> o = Some (map (fun c => if (c =? 92)%N then 47%N else c)
          (uri ++ bs "#" ++ show_nat (line (position_at d p) + 1) ++ bs "," ++ show_nat (character (position_at d p) + 1)))) /\
       ((forall p, ~ ids_of h p) -> o = Some uri)).
Lemma local_final l s r tg lk : LI l s -> local_target Lb uri d (l_ids s) (mkLink r tg) = Ok lk ->
  forall w, validate_and_clean_uri Lb uri w = Ok tg -> final_target (last_id l) w (lk_target lk).
Proof.
  intros [_ _ _ ID] H w V. exists tg. split; auto. unfold local_target in H. cbn [lk_target lk_range] in H.
  destruct tg as [x|].
  2:{ apply Ok_inj in H. subst lk. split; [discriminate|]. split; [auto|]. discriminate. }
  split; [|split; [discriminate|]].
  - intros x' E NP. apply Some_inj in E. subst x'. rewrite NP in H. apply Ok_inj in H. subst lk. auto.
  - intros h E. apply Some_inj in E. subst x.
    assert (PR : is_prefix (uri ++ bs "#") (uri ++ bs "#" ++ h) = true)
      by (rewrite app_assoc; clear; induction (uri ++ bs "#"); cbn; [auto|rewrite N.eqb_refl; auto]).
    assert (SK : skipn (length (uri ++ bs "#")) (uri ++ bs "#" ++ h) = h).
    { rewrite app_assoc, skipn_app, skipn_all, Nat.sub_diag. reflexivity. }
    rewrite PR, SK in H. split.
    + intros p I. apply ID in I. rewrite I in H. apply bind_ok in H as (y & Y & H). apply Ok_inj in H. subst lk.
      cbn [lk_target]. unfold create_uri in Y. destruct (Lb _); [|discriminate]. apply Ok_inj in Y. subst y.
      rewrite <- app_assoc. reflexivity.
    + intros N. destruct (assoc h (l_ids s)) as [p|] eqn:A; [apply ID in A; exfalso; eapply N; eauto|].
      apply Ok_inj in H. subst lk. auto.
Qed.
Lemma complete_at l l1 k l2 s v a b w ls : fold_tokens U t cs = Ok l -> link_fold l lstate0 = Ok s -> LI l s ->
  Forall2 (fun k k' => local_target Lb uri d (l_ids s) k = Ok k' /\ lk_range k' = lk_range k) (l_links s) ls ->
  l = l1 ++ k :: l2 ->
  path_value l1 k v -> value_span t k v a b -> linkable U v ->
  (forall s1, link_fold l1 lstate0 = Ok s1 -> l_in_base s1 = false /\
     points_to U resolve uri (match l_base s1 with Some x => x | None => uri end) v w) ->
  exists lk, In lk ls /\ lk_range lk = range_at d a b /\ final_target (last_id l) w (lk_target lk).
Proof.
  intros T F I FL E PV VS LK BASE.
  destruct (find_prefix _ _ _ _ _ T F E) as (s1 & s2 & F1 & I1 & S2 & F2 & B).
  destruct (BASE _ F1) as [IB PT].
  destruct (step_complete _ _ _ _ _ _ _ _ I1 B S2 PV VS LK IB PT) as (tg & V & LN).
  apply fold_links in F2 as (r & EL). rewrite LN, <- app_assoc in EL.
  assert (IN : In (mkLink (range_at d a b) tg) (l_links s)).
  { rewrite EL. apply in_or_app. right. left. auto. }
  assert (EX : exists lk, In lk ls /\ local_target Lb uri d (l_ids s) (mkLink (range_at d a b) tg) = Ok lk /\
      lk_range lk = range_at d a b).
  { revert IN. clear -FL. induction FL as [|x y l l' [H1 H2] FL IH]; [contradiction|].
    intros [->|I]; [exists y; split; [left|]; auto|]. destruct (IH I) as (lk & L1 & L2). exists lk. split; [right|]; auto. }
  destruct EX as (lk & L1 & L2 & L3). exists lk. split; auto. split; auto. eapply local_final; eauto.
Qed.
(** In a document without a [base] element every followable value of a path
    attribute gets its link. *)
Theorem C37_complete : forall ls l l1 k l2 v a b w, find = Ok ls ->
  fold_tokens U t cs = Ok l -> l = l1 ++ k :: l2 -> Forall (fun k => ~ base_tag k) l1 ->
  path_value l1 k v -> value_span t k v a b -> linkable U v -> points_to U resolve uri uri v w ->
  exists lk, In lk ls /\ lk_range lk = range_at d a b /\ final_target (last_id l) w (lk_target lk).
Proof.
  intros ls l l1 k l2 v a b w H T E NB PV VS LK PT.
  apply find_facts in H as (l' & s & T' & F & I & _ & _ & FL). rewrite T in T'. apply Ok_inj in T'. subst l'.
  eapply complete_at; eauto. intros s1 F1. destruct (fold_nobase _ _ _ F1 NB eq_refl) as [B1 B2].
  rewrite B2. cbn [lstate0 l_base]. auto.
Qed.
(** Behind a [base] element with a reference, relative references are resolved
    against that one. *)
Theorem C37_base : forall ls l m0 kb m1 kv m2 vb bu l1 k l2 v a b w, find = Ok ls ->
  fold_tokens U t cs = Ok l -> l = m0 ++ kb :: m1 ++ kv :: m2 ->
  Forall (fun k => ~ base_tag k) (m0 ++ m1 ++ m2) -> base_tag kb ->
  path_value (m0 ++ kb :: m1) kv vb -> (forall n1 k n2 v, m1 = n1 ++ k :: n2 -> ~ path_value (m0 ++ kb :: n1) k v) ->
  vb <> [] -> resolve vb uri = Ok (Some bu) ->
  m2 = l1 ++ k :: l2 -> path_value (m0 ++ kb :: m1 ++ kv :: l1) k v -> value_span t k v a b -> linkable U v ->
  points_to U resolve uri bu v w ->
  exists lk, In lk ls /\ lk_range lk = range_at d a b /\ final_target (last_id l) w (lk_target lk).
Proof.
  intros ls l m0 kb m1 kv m2 vb bu l1 k l2 v a b w H T E NB KB PB FIRST VN RB E2 PV VS LK PT.
  apply find_facts in H as (l' & s & T' & F & I & _ & _ & FL). rewrite T in T'. apply Ok_inj in T'. subst l'.
  apply (complete_at l (m0 ++ kb :: m1 ++ kv :: l1) k l2 s v a b w ls); auto.
  { rewrite E, E2. repeat (rewrite <- app_assoc; cbn [app]). reflexivity. }
  intros s1 F1.
  apply Forall_app in NB as [NB0 NB1]. apply Forall_app in NB1 as [NB1 NB2].
  (* split the run *)
  assert (RUN := F1). apply fold_app in F1 as (s0 & F0 & F1).
  destruct (fold_nobase _ _ _ F0 NB0 eq_refl) as [B1 B2].
  unfold link_fold in F1. cbn [foldm] in F1. apply bind_ok in F1 as (sb & SB & F1).
  apply fold_app in F1 as (s3 & F3 & F1). cbn [foldm] in F1. apply bind_ok in F1 as (s4 & S4 & F1).
  assert (IB : l_in_base sb = true /\ l_base sb = None).
  { destruct KB as [K1 K2]. unfold tlink in SB. rewrite K1 in SB. apply Ok_inj in SB. subst sb. cbn [l_in_base l_base].
    unfold tk_name in K2. fold t in K2. rewrite K2, B2, orb_true_r. auto. }
  assert (ALL : forall n1 n2 sx, m1 = n1 ++ n2 -> link_fold n1 sb = Ok sx -> LI (m0 ++ kb :: n1) sx /\
      l_in_base sx = true /\ l_base sx = None).
  { intros n1 n2 sx EN FN.
    assert (EL : l = (m0 ++ kb :: n1) ++ n2 ++ kv :: m2).
    { rewrite E, EN. repeat (rewrite <- app_assoc; cbn [app]). reflexivity. }
    destruct (fold_tokens_value_name _ T) as [BD VNA].
    split.
    { apply (LI_fold (m0 ++ kb :: n1) [] lstate0 sx LI_start).
      - rewrite EL in BD. apply Forall_app in BD. tauto.
      - intros q1 q q2 Q TQ. rewrite Q in EL. rewrite <- app_assoc in EL. cbn [app] in EL. cbn [app]. eapply VNA; eauto.
      - unfold link_fold. clear -F0 SB FN. revert F0. generalize lstate0. induction m0 as [|x m0 IH]; intros s F0.
        + apply Ok_inj in F0. subst s0. cbn [app foldm]. rewrite SB. exact FN.
        + cbn [foldm app] in *. apply bind_ok in F0 as (sx1 & X & F0). rewrite X. cbn [bind]. apply IH. exact F0. }
    revert sx n2 EN FN EL. induction n1 as [|x n1 IHn] using rev_ind; intros sx n2 EN FN EL.
    { apply Ok_inj in FN. subst sx. auto. }
    rewrite <- app_assoc in EN. cbn [app] in EN.
    apply fold_app in FN as (sy & FN & SX). unfold link_fold in SX. cbn [foldm] in SX. apply bind_ok in SX as (sz & SX & Z).
    apply Ok_inj in Z. subst sz.
    assert (EL' : l = (m0 ++ kb :: n1) ++ (x :: n2) ++ kv :: m2).
    { rewrite E, EN. repeat (rewrite <- app_assoc; cbn [app]). reflexivity. }
    destruct (IHn _ _ EN FN EL') as [J1 J2].
    assert (LIY : LI (m0 ++ kb :: n1) sy).
    { apply (LI_fold (m0 ++ kb :: n1) [] lstate0 sy LI_start).
      - rewrite EL' in BD. apply Forall_app in BD. tauto.
      - intros q1 q q2 Q TQ. rewrite Q in EL'. rewrite <- app_assoc in EL'. cbn [app] in EL'. cbn [app]. eapply VNA; eauto.
      - unfold link_fold. clear -F0 SB FN. revert F0. generalize lstate0. induction m0 as [|x m0 IH]; intros s F0.
        + apply Ok_inj in F0. subst s0. cbn [app foldm]. rewrite SB. exact FN.
        + cbn [foldm app] in *. apply bind_ok in F0 as (sx1 & X & F0). rewrite X. cbn [bind]. apply IH. exact F0. }
    assert (NBX : ~ base_tag x).
    { rewrite Forall_forall in NB1. apply NB1. rewrite EN. apply in_or_app. right. left. auto. }
    destruct LIY as [Y1 Y2 _ _]. unfold tlink in SX.
    destruct (tk_type x) eqn:TX; try (apply Ok_inj in SX; subst sx; auto; fail).
    - apply Ok_inj in SX. subst sx. cbn [l_in_base l_base]. rewrite J1. auto.
    - destruct (VNA (m0 ++ kb :: n1) x (n2 ++ kv :: m2)) as (ka & KA); auto.
      rewrite (Y2 _ KA) in SX. destruct (l_tag sy) as [tg|]; [|apply Ok_inj in SX; subst sx; auto].
      destruct Y1 as (kt & K1 & ->).
      destruct (is_path_attribute (tk_name kt) (tk_name ka)) eqn:PA.
      + exfalso. rewrite J1, J2 in SX. apply bind_ok in SX as (bb & BB & _). apply bind_ok in BB as (v0 & NR & _).
        apply C38_strip in NR as [NR _]. apply (FIRST n1 x n2 v0 EN). split; auto. split; auto. exists kt, ka. auto.
      + destruct (beq _ _); [|apply Ok_inj in SX; subst sx; auto].
        apply bind_ok in SX as (y & _ & SX). apply Ok_inj in SX. subst sx. auto. }
  destruct (ALL m1 [] s3) as (LI3 & J1 & J2); [rewrite app_nil_r; auto|exact F3|].
  assert (S4B : l_in_base s4 = false /\ l_base s4 = Some bu).
  { destruct PB as (TK & ST & kt & ka & K1 & K2 & PA). destruct LI3 as [Y1 Y2 _ _].
    unfold tlink in S4. rewrite TK, (Y2 _ K2) in S4. destruct (l_tag s3) as [tg|]; [|exfalso; eapply Y1; eauto].
    destruct Y1 as (kt' & K1' & ->). rewrite (last_tag_unique _ _ _ K1' K1), PA, J1, J2 in S4.
    apply bind_ok in S4 as (bb & BB & S4). apply Ok_inj in S4. subst s4. cbn [l_in_base l_base]. split; auto.
    apply bind_ok in BB as (v0 & NR & BB). apply C38_strip in NR as [NR _]. rewrite (C38_unique _ _ _ NR ST) in BB.
    destruct vb; [contradiction|]. rewrite RB in BB. cbn [bind] in BB. apply Ok_inj in BB. auto. }
  destruct S4B as [S41 S42].
  assert (NB3 : Forall (fun k => ~ base_tag k) l1) by (rewrite E2 in NB2; apply Forall_app in NB2; tauto).
  destruct (fold_nobase _ _ _ F1 NB3 S41) as [C1 C2]. rewrite C1, C2, S42. auto.
Qed.

(** A reference to the web that is a URI is kept as it is. *)
Lemma slashes_id x : ~ In 92%N x -> map (fun c => if (c =? 92)%N then 47%N else c) x = x.
Proof.
  induction x as [|c x IH]; cbn [map In]; auto. intros N. rewrite IH by tauto.
  destruct (c =? 92)%N eqn:E; auto. apply N.eqb_eq in E. exfalso. auto.
Qed.
Theorem C37_remote : forall ids w o p, final_target ids w o -> Lb w = Some p -> u_scheme p <> Some (bs "file") ->
  ~ In 92%N w -> is_prefix (uri ++ bs "#") w = false -> o = Some w.
Proof.
  intros ids w o p (tg & V & R & _) HP NF NB NP.
  assert (FI : is_file p = false).
  { unfold is_file. destruct (u_scheme p) as [x|]; auto. destruct (beq x (bs "file")) eqn:B; auto.
    apply beq_eq in B. congruence. }
  unfold validate_and_clean_uri, create_uri in V. rewrite (slashes_id _ NB), HP in V. cbn [unwrap bind] in V.
  rewrite HP in V. cbn [unwrap bind] in V. rewrite FI in V. cbn [andb bind] in V. rewrite HP in V. cbn [unwrap bind] in V.
  rewrite FI in V. cbn [andb] in V. rewrite (slashes_id _ NB), HP in V. cbn [unwrap bind] in V. apply Ok_inj in V.
  subst tg. eapply R; eauto.
Qed.
Lemma digits_no_slash n : ~ In 92%N (show_nat n).
Proof.
  unfold show_nat. assert (H : forall u, ~ In 92%N (bs (NilEmpty.string_of_uint u))).
  { induction u; [intros []|cbn; intros [H|H]; auto; discriminate ..]. }
  unfold NilZero.string_of_uint. destruct (Nat.to_uint n); try apply H. cbn. intros [?|[]]. discriminate.
Qed.
(** An anchor leads to the place of the id, or to the document. *)
Theorem C37_anchor : forall ids h o p, uri_ok Lb -> final_target ids (uri ++ bs "#" ++ h) o ->
  Lb (uri ++ bs "#" ++ h) = Some p -> ~ In 92%N (uri ++ h) -> ~ In 63%N (uri ++ h) ->
  (forall q, ids h q -> o = Some (uri ++ bs "#" ++ show_nat (line (position_at d q) + 1) ++ bs "," ++
     show_nat (character (position_at d q) + 1))) /\
  ((forall q, ~ ids h q) -> o = Some uri).
Proof.
  intros ids h o p UO (tg & V & _ & _ & A) HP NB NQ.
  set (w := uri ++ bs "#" ++ h) in *.
  assert (NBW : ~ In 92%N w).
  { unfold w. rewrite !in_app_iff in *. intros [I|[I|I]]; [tauto| |tauto]. destruct I as [I|[]]. discriminate. }
  assert (NQW : ~ In 63%N w).
  { unfold w. rewrite !in_app_iff in *. intros [I|[I|I]]; [tauto| |tauto]. destruct I as [I|[]]. discriminate. }
  assert (QN : u_query p = None).
  { destruct (u_query p) as [q|] eqn:Q; auto. exfalso. apply NQW. rewrite <- (uo_parts _ UO _ _ HP).
    unfold recompose. rewrite Q. cbn [opt_pre]. rewrite !in_app_iff. cbn. tauto. }
  assert (PR : is_prefix uri w = true).
  { unfold w. clear. induction uri as [|c u IH]; cbn; auto. rewrite N.eqb_refl. auto. }
  assert (NT : nth_error w (length uri) = Some 35%N).
  { unfold w. rewrite nth_error_app2, Nat.sub_diag by lia. reflexivity. }
  unfold validate_and_clean_uri, create_uri in V. rewrite (slashes_id _ NBW), HP in V. cbn [unwrap bind] in V.
  rewrite HP in V. cbn [unwrap bind] in V. rewrite QN in V. cbn [is_some] in V. rewrite andb_false_r in V. cbn [bind] in V.
  rewrite HP in V. cbn [unwrap bind] in V. rewrite PR, NT in V. change (35 =? 35)%N with true in V. cbn [andb negb] in V.
  rewrite andb_false_r, (slashes_id _ NBW), HP in V. cbn [unwrap bind] in V. apply Ok_inj in V. subst tg.
  destruct (A h eq_refl) as [A1 A2]. split; auto. intros q Q. rewrite (A1 q Q). f_equal. apply slashes_id.
  rewrite !in_app_iff in *. pose proof (digits_no_slash (line (position_at d q) + 1)).
  pose proof (digits_no_slash (character (position_at d q) + 1)). intros [I|[I|[I|[I|I]]]]; try tauto.
  - destruct I as [I|[]]. discriminate.
  - destruct I as [I|[]]. discriminate.
Qed.
(** A reference to a file, with scheme, authority and path, loses its query, and its fragment unless it is the
    address of the document itself that the fragment is added to. *)
Lemma before_last_at c a b : ~ In c b -> before_last c (a ++ c :: b) = Some a.
Proof.
  intros N. assert (Z : before_last c b = None).
  { induction b as [|x b IH]; [reflexivity|]. cbn [before_last]. rewrite IH by (intros I; apply N; right; auto).
    destruct (x =? c)%N eqn:E; auto. apply N.eqb_eq in E. exfalso. apply N. left. auto. }
  induction a as [|x a IH]; cbn [app before_last]; [rewrite Z, N.eqb_refl; reflexivity|]. rewrite IH. reflexivity.
Qed.
Lemma is_prefix_app p x : is_prefix p x = true -> exists r, x = p ++ r.
Proof.
  revert x. induction p as [|c p IH]; intros x H; [exists x; auto|]. destruct x as [|y x]; [discriminate|]. cbn [is_prefix] in H.
  apply andb_prop in H as [H1 H2]. apply N.eqb_eq in H1. destruct (IH x H2) as (r & ->). subst y. exists r. auto.
Qed.
Theorem C37_file_target : forall ids w o p, uri_ok Lb -> final_target ids w o -> Lb w = Some p -> ~ In 92%N w ->
  u_scheme p = Some (bs "file") ->
  (u_query p = None -> u_frag p = None -> o = Some w) /\
  (forall f, u_query p = None -> u_frag p = Some f -> (forall h, w <> uri ++ bs "#" ++ h) ->
     o = Some (bs "file://" ++ match u_auth p with Some a => a | None => [] end ++ u_path p)) /\
  (forall q, u_query p = Some q -> ~ In 63%N q -> (forall f, u_frag p = Some f -> ~ In 63%N f) ->
     o = Some (bs "file:" ++ opt_pre (bs "//") (u_auth p) ++ u_path p)).
Proof.
  intros ids w o p UO (tg & V & R & _) HP NB SF.
  pose proof (uo_parts _ UO _ _ HP) as EW. unfold recompose in EW. rewrite SF in EW. cbn [opt_post] in EW.
  destruct (uo_path _ UO _ _ HP) as [P1 P2]. unfold has in *.
  assert (AU : forall a, u_auth p = Some a -> ~ In 35%N a). { intros a A. apply (uo_auth _ UO _ _ _ HP A). }
  assert (NF1 : ~ In 35%N (bs "file:" ++ opt_pre (bs "//") (u_auth p) ++ u_path p)).
  { rewrite !in_app_iff. intros [I|[I|I]]; [repeat (destruct I as [I|I]; [discriminate|]); destruct I| |auto].
    destruct (u_auth p) as [a|] eqn:A; [|destruct I]. cbn [opt_pre] in I. apply in_app_or in I as [I|I]; [|eapply AU; eauto].
    repeat (destruct I as [I|I]; [discriminate|]). destruct I. }
  assert (NF2 : ~ In 35%N (bs "file://" ++ match u_auth p with Some a => a | None => [] end ++ u_path p)).
  { rewrite !in_app_iff. intros [I|[I|I]]; [repeat (destruct I as [I|I]; [discriminate|]); destruct I| |auto].
    destruct (u_auth p) as [a|] eqn:A; [|destruct I]. eapply AU; eauto. }
  assert (NP : forall x, ~ In 35%N x -> is_prefix (uri ++ bs "#") x = false).
  { intros x N. destruct (is_prefix (uri ++ bs "#") x) eqn:E; auto. exfalso. apply is_prefix_app in E as (r & ->). apply N.
    apply in_or_app. left. apply in_or_app. right. left. reflexivity. }
  unfold validate_and_clean_uri, create_uri in V. rewrite (slashes_id _ NB), HP in V. cbn [unwrap bind] in V.
  rewrite HP in V. cbn [unwrap bind] in V. assert (FI : is_file p = true) by (unfold is_file; rewrite SF; apply beq_refl).
  rewrite FI in V. cbn [andb] in V. split; [|split].
  - intros Q F. rewrite Q in V. cbn [is_some bind] in V. rewrite HP in V. cbn [unwrap bind] in V. rewrite FI, F in V. cbn [is_some andb] in V.
    rewrite (slashes_id _ NB), HP in V. cbn [unwrap bind] in V. apply Ok_inj in V. subst tg. apply (R w); auto. apply NP.
    rewrite <- EW, Q, F. cbn [opt_pre]. rewrite !app_nil_r. exact NF1.
  - intros f Q F NU. rewrite Q in V. cbn [is_some bind] in V. rewrite HP in V. cbn [unwrap bind] in V. rewrite FI, F in V. cbn [is_some andb] in V.
    assert (X : negb (is_prefix uri w && match nth_error w (length uri) with Some c => (c =? 35)%N | None => false end) = true).
    { destruct (is_prefix uri w) eqn:E; [|reflexivity]. apply is_prefix_app in E as (r & E). rewrite E.
      rewrite nth_error_app2, Nat.sub_diag by lia. destruct r as [|c r]; [reflexivity|]. cbn [nth_error andb]. destruct (c =? 35)%N eqn:C; [|reflexivity].
      apply N.eqb_eq in C. subst c. exfalso. apply (NU r). exact E. }
    rewrite X in V. destruct (Lb _) in V; [|discriminate]. cbn [unwrap bind] in V. apply Ok_inj in V. subst tg. eapply R; eauto.
  - intros q Q NQ NFr. rewrite Q in V. cbn [is_some] in V. set (pre := bs "file:" ++ opt_pre (bs "//") (u_auth p) ++ u_path p) in *.
    assert (EQ : w = pre ++ 63%N :: q ++ opt_pre (bs "#") (u_frag p)).
    { rewrite <- EW, Q. unfold pre. cbn [opt_pre]. change (bs "file" ++ bs ":") with (bs "file:"). rewrite !app_assoc_reverse. reflexivity. }
    assert (NBP : ~ In 92%N pre) by (intros I; apply NB; rewrite EQ; apply in_or_app; auto).
    rewrite EQ in V at 1. rewrite before_last_at in V.
    2:{ rewrite in_app_iff. intros [I|I]; auto. destruct (u_frag p) as [f|]; [|destruct I]. cbn [opt_pre] in I.
        destruct I as [I|I]; [discriminate|]. eapply NFr; eauto. }
    cbn [unwrap bind] in V. rewrite (slashes_id _ NBP) in V. destruct (Lb pre) as [p1|] eqn:L1; [|discriminate]. cbn [unwrap bind] in V.
    rewrite L1 in V. cbn [unwrap bind] in V.
    assert (F1 : u_frag p1 = None).
    { destruct (u_frag p1) as [f|] eqn:F; auto. exfalso. apply NF1. pose proof (uo_parts _ UO _ _ L1) as E1. rewrite <- E1. unfold recompose.
      rewrite F. cbn [opt_pre]. rewrite !in_app_iff. cbn. tauto. }
    rewrite F1 in V. cbn [is_some] in V. rewrite andb_false_r in V. cbn [andb] in V. rewrite (slashes_id _ NBP), L1 in V. cbn [unwrap bind] in V.
    apply Ok_inj in V. subst tg. apply (R pre); auto.
Qed.
(** The computation ends. *)
Lemma bind_fuel {A B} (x : res A) (f : A -> res B) : x <> OutOfFuel -> (forall a, f a <> OutOfFuel) -> bind x f <> OutOfFuel.
Proof. destruct x; cbn; auto. discriminate. Qed.
Lemma unwrap_fuel {A} (o : option A) : unwrap o <> OutOfFuel.
Proof. destruct o; discriminate. Qed.
Lemma normalize_fuel x : normalize_ref x <> OutOfFuel.
Proof. destruct (normalize_cases x) as [(q & w & Q & -> & R)|[(q & Q & -> & R)|(N1 & N2 & R)]]; rewrite R; discriminate. Qed.
Lemma slice_fuel a b : slice t a b <> OutOfFuel.
Proof. unfold slice. destruct (_ && _); discriminate. Qed.
Theorem C37_terminates : (forall r b, resolve r b <> OutOfFuel) -> find <> OutOfFuel.
Proof.
  intros NR. unfold find_document_links. apply bind_fuel.
  - apply (loop_fuel U t cs _ (link_step U Lb resolve uri d cs)).
    + intros [|fuel] sc' s'; reflexivity.
    + intros sc s. unfold link_step. destruct (tok sc); try discriminate; try (apply bind_fuel; [apply slice_fuel|]; discriminate).
      destruct (l_tag s); [|discriminate]. destruct (l_attr s); [|discriminate].
      destruct (is_path_attribute _ _).
      * apply bind_fuel; [apply slice_fuel|]. intros v. destruct (l_in_base s).
        -- apply bind_fuel; [|discriminate]. destruct (l_base s); [discriminate|].
           apply bind_fuel; [apply normalize_fuel|]. intros [|c b]; [discriminate|].
           apply bind_fuel; [apply NR|discriminate].
        -- apply bind_fuel; [|discriminate]. unfold create_link. apply bind_fuel; [apply normalize_fuel|]. intros tc.
           destruct (negb _); [discriminate|]. apply bind_fuel.
           { destruct (_ <? _); [|discriminate]. apply bind_fuel; [|discriminate]. unfold usub. destruct (_ <=? _); discriminate. }
           intros [so eo]. apply bind_fuel.
           { unfold get_workspace_url. destruct (reg_javascript _); [discriminate|]. destruct (reg_schema _ _).
             - destruct (_ || _ || _); discriminate.
             - destruct (is_prefix _ _); [discriminate|]. destruct (is_prefix _ _); [discriminate|]. apply NR. }
           intros [w|]; [|discriminate]. apply bind_fuel; [|discriminate]. unfold validate_and_clean_uri.
           destruct (create_uri _ _); [|discriminate]. apply bind_fuel; [apply unwrap_fuel|]. intros p0.
           apply bind_fuel.
           { destruct (_ && _); [|discriminate]. apply bind_fuel; [apply unwrap_fuel|]. intros. apply unwrap_fuel. }
           intros u1. apply bind_fuel; [apply unwrap_fuel|]. intros p1.
           destruct (_ && _ && _); apply bind_fuel; try apply unwrap_fuel; discriminate.
      * destruct (beq _ _); [|discriminate]. apply bind_fuel; [apply slice_fuel|]. intros v.
        apply bind_fuel; [apply normalize_fuel|discriminate].
    + intros E. apply (fold_tokens_fuel U d cs HD). unfold fold_tokens, scan_fuel in *. unfold t in E. rewrite E. reflexivity.
  - intros s. generalize (l_links s). induction l as [|k l IH]; cbn [local_targets]; [discriminate|].
    apply bind_fuel.
    + unfold local_target. destruct (lk_target k); [|discriminate]. destruct (is_prefix _ _); [|discriminate].
      destruct (assoc _ _); [|discriminate]. apply bind_fuel; [apply unwrap_fuel|discriminate].
    + intros k'. apply bind_fuel; [auto|discriminate].
Qed.
End L.
Print Assumptions C37_on_values.
Print Assumptions C37_text.
Print Assumptions C37_disjoint.
Print Assumptions C37_complete.
Print Assumptions C37_base.
Print Assumptions C37_remote.
Print Assumptions C37_anchor.
Print Assumptions C37_file_target.
Print Assumptions C37_terminates.

(** ** A document *)
Definition link_uri : str := bs "https://h.org/d/i.html".
Definition link_run (s : str) : res (list link) :=
  find_document_links demo_unicode rfc_uri (resolve_reference rfc_uri) link_uri (utf16_doc s) false.
Definition shown (r : res (list link)) : res (list (nat * nat * option str)) :=
  do l <- r; Ok (map (fun k => (character (r_start (lk_range k)), character (r_end (lk_range k)), lk_target k)) l).
Example C37_demo : shown (link_run (bs "<p id=q><a href=""x.html"">é</a><A HREF=#q><a href='#z'><a href=""JavaScript:1""><img SRC=//k/l>")) =
  Ok [(17, 23, Some (bs "https://h.org/d/x.html"));
      (38, 40, Some (link_uri ++ bs "#1,7"));
      (50, 52, Some link_uri);
      (86, 91, Some (bs "https://k/l"))].
Proof. vm_compute. reflexivity. Qed.
Example C37_demo_base : shown (link_run (bs "<img src=a.png><base href='/k/'><img src=a.png>")) =
  Ok [(9, 14, Some (bs "https://h.org/d/a.png")); (41, 46, Some (bs "https://h.org/k/a.png"))].
Proof. vm_compute. reflexivity. Qed.
(** The hypotheses of [C37_complete] and [C37_base] can be met. *)
Definition link_doc : textdoc := utf16_doc (bs "<base href='/k/'><img src=a.png>").
Definition link_toks : list token := Eval vm_compute in
  match fold_tokens demo_unicode (d_text link_doc) false with Ok l => l | _ => [] end.
Lemma link_doc_ok : textdoc_ok link_doc.
Proof. apply C27_contract. exists (decode (d_text link_doc)). vm_compute. auto. Qed.
Lemma plain_word v c : In c (decode v) -> is_word demo_unicode c = true -> Utf8 v -> reg_javascript v = false ->
  linkable demo_unicode v.
Proof.
  intros I W UV J. assert (~ (javascript_url v \/ has_line_break v)) by (rewrite <- reg_javascript_iff by auto; congruence).
  split; [tauto|]. split; [tauto|]. exists c. auto.
Qed.
Example C37_hypotheses : exists m0 kb m1 kv m2 vb bu l1 k l2 v a b w,
  fold_tokens demo_unicode (d_text link_doc) false = Ok (m0 ++ kb :: m1 ++ kv :: m2) /\
  Forall (fun k => ~ base_tag demo_unicode link_doc false k) (m0 ++ m1 ++ m2) /\ base_tag demo_unicode link_doc false kb /\
  path_value demo_unicode link_doc false (m0 ++ kb :: m1) kv vb /\
  (forall n1 k n2 v, m1 = n1 ++ k :: n2 -> ~ path_value demo_unicode link_doc false (m0 ++ kb :: n1) k v) /\
  vb <> [] /\ resolve_reference rfc_uri vb link_uri = Ok (Some bu) /\
  m2 = l1 ++ k :: l2 /\ path_value demo_unicode link_doc false (m0 ++ kb :: m1 ++ kv :: l1) k v /\
  value_span (d_text link_doc) k v a b /\ linkable demo_unicode v /\
  points_to demo_unicode (resolve_reference rfc_uri) link_uri bu v w.
Proof.
  exists (firstn 1 link_toks), (nth 1 link_toks (mkToken EOS 0 0 None WithinContent)),
    (firstn 3 (skipn 2 link_toks)), (nth 5 link_toks (mkToken EOS 0 0 None WithinContent)), (skipn 6 link_toks),
    (bs "/k/"), (bs "https://h.org/k/"), (firstn 6 (skipn 6 link_toks)), (nth 12 link_toks (mkToken EOS 0 0 None WithinContent)),
    (skipn 13 link_toks), (bs "a.png"), 26, 31, (bs "https://h.org/k/a.png").
  split; [vm_compute; reflexivity|].
  split; [cbn [firstn skipn app link_toks]; repeat (constructor; [intros [A B]; first [discriminate A|discriminate B|vm_compute in B; discriminate B]|]); constructor|].
  split; [split; vm_compute; reflexivity|].
  split.
  { split; [vm_compute; reflexivity|]. split; [left; exists 39%N; split; [right; reflexivity|vm_compute; reflexivity]|].
    exists (nth 1 link_toks (mkToken EOS 0 0 None WithinContent)), (nth 3 link_toks (mkToken EOS 0 0 None WithinContent)).
    split; [exists (firstn 1 link_toks), (firstn 3 (skipn 2 link_toks)); split; [reflexivity|]; vm_compute; split; [auto|];
            repeat constructor; discriminate|].
    split; [exists (firstn 3 link_toks), (firstn 1 (skipn 4 link_toks)); split; [vm_compute; reflexivity|]; vm_compute;
            split; [auto|]; (constructor; [right; reflexivity|constructor])|].
    vm_compute. reflexivity. }
  split.
  { intros n1 k n2 v E (T & _). assert (I : In k (firstn 3 (skipn 2 link_toks))) by (rewrite E; apply in_or_app; right; left; auto).
    clear E. cbn [firstn skipn link_toks In] in I. destruct I as [<-|[<-|[<-|[]]]]; discriminate T. }
  split; [discriminate|]. split; [vm_compute; reflexivity|]. split; [vm_compute; reflexivity|].
  split.
  { split; [vm_compute; reflexivity|]. split; [right; split; [|vm_compute; reflexivity]|].
    { intros (q & v & Q & E). vm_compute in E. injection E as <- _. destruct Q; discriminate. }
    exists (nth 8 link_toks (mkToken EOS 0 0 None WithinContent)), (nth 10 link_toks (mkToken EOS 0 0 None WithinContent)).
    split; [exists (firstn 8 link_toks), (firstn 3 (skipn 9 link_toks)); split; [vm_compute; reflexivity|]; vm_compute; split; [auto|];
            repeat constructor; discriminate|].
    split; [exists (firstn 10 link_toks), (firstn 1 (skipn 11 link_toks)); split; [vm_compute; reflexivity|]; vm_compute;
            split; [auto|]; (constructor; [right; reflexivity|constructor])|].
    vm_compute. reflexivity. }
  split.
  { change 26 with (tk_off (nth 12 link_toks (mkToken EOS 0 0 None WithinContent))).
    change 31 with (tk_end (nth 12 link_toks (mkToken EOS 0 0 None WithinContent))). apply span_plain; [|vm_compute; reflexivity].
    intros (q & v & Q & E). vm_compute in E. injection E as <- _. destruct Q; discriminate. }
  assert (UV : Utf8 (bs "a.png")) by (exists (decode (bs "a.png")); vm_compute; auto).
  split; [apply (plain_word _ 97%N); auto; vm_compute; auto|].
  apply to_resolved with (w := bs "a.png").
  - exists [], (bs "a.png"). vm_compute. auto.
  - intros x X. apply (reg_schema_iff _ (resolve_reference rfc_uri)) in X; auto. vm_compute in X. discriminate X.
  - reflexivity.
  - reflexivity.
  - vm_compute. reflexivity.
Qed.

(** ** Findings *)
(** A quote at the end of the document, a document being typed: panic. *)
Theorem C37_lone_quote_refuted : link_run (bs "<a href=""") = Panic PSlice.
Proof. vm_compute. reflexivity. Qed.
(** An empty or invalid base reference: panic at the next relative link. *)
Theorem C37_empty_base_refuted : (exists r, link_run (bs "<base href=''><img src=a>") = Panic r) /\
  exists r, link_run (bs "<base href='%'><img src=a>") = Panic r.
Proof. split; eexists; vm_compute; reflexivity. Qed.
(** A [base] element without reference swallows the next link. *)
Theorem C37_base_target_refuted : shown (link_run (bs "<base target=_blank><img src=a.png><img src=b.png>")) =
  Ok [(44, 49, Some (bs "https://h.org/d/b.png"))].
Proof. vm_compute. reflexivity. Qed.
(** White space behind the equals sign hides the value. *)
Theorem C37_space_refuted : link_run (bs "<a href= ""x.html"">") = Ok [].
Proof. vm_compute. reflexivity. Qed.
(** A question mark in the fragment of a file reference cuts the wrong part. *)
Theorem C37_fragment_query_refuted : shown (link_run (bs "<a href=""file:///a?b#c?d"">")) =
  Ok [(9, 24, Some (bs "file:///a"))].
Proof. vm_compute. reflexivity. Qed.
(** The cases of C37_file_target *)
Example C37_file_demo : shown (link_run (bs "<a href=""file:///a/b""><a href=""file://h/a/b#c""><a href=""file:///a?b=c#d"">")) =
  Ok [(9, 20, Some (bs "file:///a/b")); (31, 45, Some (bs "file://h/a/b")); (56, 71, Some (bs "file:///a"))] /\
  (exists p, rfc_uri (bs "file:///a?b=c#d") = Some p /\ u_scheme p = Some (bs "file") /\ u_query p = Some (bs "b=c") /\ u_frag p = Some (bs "d")).
Proof. split; [vm_compute; reflexivity|]. eexists. vm_compute. repeat split. Qed.
(** A file reference without authority and a path that looks like one: panic. *)
Theorem C37_file_refuted : exists r, link_run (bs "<a href=""file:a:b#x"">") = Panic r.
Proof. eexists. vm_compute. reflexivity. Qed.
