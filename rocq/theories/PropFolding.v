(** * C34, C35, C47, C48: folding ranges *)
From Verif Require Import Base Stream Scanner BaseFacts ScannerFacts ScanStep ScanProps ScanPanic
  ScanShape ScanResume Tree Parser ParseSpec ParseInv TextDoc PropDoc Folding FoldLimit.
From Coq Require Import ZifyBool ZifyNat ZifyN Sorting.Sorted Sorting.Permutation.

(** ** Specification *)
(** The tokens folding looks at. *)
Definition fold_tokens (U : unicode) (t : str) (cs : bool) : res (list token) :=
  do ' (l, _) <- tokens U t false cs (2 * length t + 2) (scanner_new 0 WithinContent); Ok l.
Definition is_closer (k : token) : Prop :=
  tk_type k = StartTagClose \/ tk_type k = EndTagClose \/ tk_type k = StartTagSelfClose.
(** The last tag name among the tokens [l]. *)
Definition last_name (t : str) (l : list token) (x : str) : Prop :=
  exists l1 k l2, l = l1 ++ k :: l2 /\ (tk_type k = StartTag \/ tk_type k = EndTag) /\ tk_text t k = x /\
    Forall (fun k => tk_type k <> StartTag /\ tk_type k <> EndTag) l2.
(** Where a folding range comes from. *)
Inductive fold_source (U : unicode) (d : textdoc) (void : list str) (l : list token) : frange -> Prop :=
| from_element l1 k1 l2 k2 l3 : l = l1 ++ k1 :: l2 ++ k2 :: l3 ->
    tk_type k1 = StartTag -> is_closer k2 -> last_name (d_text d) (k1 :: l2) (tk_text (d_text d) k1) ->
    (tk_type k2 = StartTagClose -> is_void_element (tk_text (d_text d) k1) void = true) ->
    fold_source U d void l (mkF (line (position_at d (tk_off k1))) (line (position_at d (tk_end k2)) - 1) None)
| from_region l1 k1 l2 k2 l3 : l = l1 ++ k1 :: l2 ++ k2 :: l3 ->
    tk_type k1 = Comment -> region_start U (tk_text (d_text d) k1) = true ->
    tk_type k2 = Comment -> region_end U (tk_text (d_text d) k2) = true ->
    fold_source U d void l (mkF (line (position_at d (tk_off k1))) (line (position_at d (tk_off k2))) (Some KRegion))
| from_comment l1 k l2 : l = l1 ++ k :: l2 ->
    tk_type k = Comment -> region_start U (tk_text (d_text d) k) = false ->
    region_end U (tk_text (d_text d) k) = false ->
    fold_source U d void l
      (mkF (line (position_at d (tk_off k))) (line (position_at d (tk_end k + 3))) (Some KComment)).

(** ** The loop as a function of the tokens *)
Section F.
Variables (U : unicode) (d : textdoc) (cs : bool) (void : list str).
Hypothesis HD : textdoc_ok d.
Let t := d_text d.
Let HU : Utf8 t := do_utf8 d HD.
Notation ln := (line_at d).
Notation len := (length t).

Definition closes_now (k : token) (last : option str) : bool :=
  negb (token_eqb (tk_type k) StartTagClose) ||
  match last with Some x => is_void_element x void | None => false end.
Definition tstep (s : fstate) (k : token) : fstate :=
  let x := tk_text t k in
  match tk_type k with
  | StartTag => mkFS (f_ranges s) ((ln (tk_off k), x) :: f_stack s) (Some x) (f_prev s)
  | EndTag => mkFS (f_ranges s) (f_stack s) (Some x) (f_prev s)
  | StartTagClose | EndTagClose | StartTagSelfClose =>
      if closes_now k (f_last s) then
        match find_entry (fun x => match f_last s with Some y => beq x y | None => false end) (f_stack s) with
        | None => s
        | Some (l, below) =>
            let e := ln (tk_end k) in
            if (l + 1 <? e) && differs (f_prev s) l
            then mkFS (f_ranges s ++ [mkF l (e - 1) None]) below (f_last s) (Some l)
            else mkFS (f_ranges s) below (f_last s) (f_prev s)
        end
      else s
  | Comment =>
      let l := ln (tk_off k) in
      if region_start U x then mkFS (f_ranges s) ((l, []) :: f_stack s) (f_last s) (f_prev s)
      else if region_end U x then
        match find_entry (fun x => negb (nonempty_str x)) (f_stack s) with
        | None => s
        | Some (l', below) =>
            if (l' <? l) && differs (f_prev s) l'
            then mkFS (f_ranges s ++ [mkF l' l (Some KRegion)]) below (f_last s) (Some l')
            else mkFS (f_ranges s) below (f_last s) (f_prev s)
        end
      else
        let e := ln (tk_end k + 3) in
        if l <? e then mkFS (f_ranges s ++ [mkF l e (Some KComment)]) (f_stack s) (f_last s) (Some l) else s
  | _ => s
  end.

(** What the scanner guarantees about the tokens used. *)
Definition token_ok (k : token) : Prop :=
  tk_off k <= tk_end k /\ tk_end k <= len /\
  match tk_type k with
  | StartTag | EndTag => Bd t (tk_off k) /\ Bd t (tk_end k) /\ tk_off k < tk_end k
  | StartTagClose | EndTagClose | StartTagSelfClose => Bd t (tk_end k)
  | Comment => Bd t (tk_off k) /\ Bd t (tk_end k) /\
      (is_prefix (bs "-->") (skipn (tk_end k) t) = true \/ tk_end k = len)
  | _ => True
  end.
Fixpoint comment_next (l : list token) : Prop :=
  match l with
  | [] => True
  | k1 :: r =>
      match r with
      | [] => True
      | k2 :: _ => tk_type k1 = Comment -> tk_type k2 = EndCommentTag /\ tk_end k2 = tk_end k1 + 3
      end /\ comment_next r
  end.

Lemma scan_token_ok sc sc' : Good t sc -> scan U t false cs sc = Ok sc' -> tok sc' <> EOS ->
  token_ok (token_of sc').
Proof.
  intros HG S NE. pose proof (scan_outcome U t false cs HU _ _ S) as O.
  pose proof (scan_progress U t false cs HU _ _ S) as (P1 & P2).
  assert (L : pos sc < len).
  { destruct (Nat.lt_ge_cases (pos sc) len); auto. exfalso. apply NE.
    apply (scan_eos_iff U t false cs HU _ _ S). auto. }
  split; [cbn; destruct P2 as [?|[?|?]]; intuition lia|].
  split; [cbn; destruct P2 as [?|[?|?]]; intuition lia|].
  specialize (HG ltac:(lia)).
  inv O; cbn [token_of tok finish tk_type tk_off tk_end tok_off pos]; auto.
  - destruct HG as [HG|[[HG _]|HG]]; try congruence.
    split; auto. split; [eapply bd_first_str; eauto; discriminate|].
    destruct H2 as (_ & _ & _ & [H2|[H2 _]]); auto.
  - destruct (bd_elem U t HU _ _ H0). split; auto. split; auto. apply H0.
  - eapply Bd_after_ascii; eauto. reflexivity.
  - discriminate.
  - destruct (bd_elem U t HU _ _ H0). split; auto. split; auto. apply H0.
  - inv H1; cbn [token_of tok finish tk_type tk_off tk_end tok_off pos]; auto.
    + apply (Bd_prefix t _ (bs "/>")); auto; discriminate.
    + eapply Bd_after_ascii; eauto. reflexivity.
    + discriminate.
Qed.

Lemma tokens_fold_ok fuel sc l f : tokens U t false cs fuel sc = Ok (l, f) ->
  Good t sc \/ after_bad_char t sc -> Forall token_ok l /\ comment_next l /\
  match l with
  | k2 :: _ => tok sc = Comment -> st sc = WithinComment ->
      is_prefix (bs "-->") (skipn (pos sc) t) = true \/ pos sc = len ->
      tk_type k2 = EndCommentTag /\ tk_end k2 = pos sc + 3
  | [] => True
  end.
Proof.
  revert sc l f. induction fuel as [|fuel IH]; intros sc l f H HG; [discriminate|].
  cbn [Scanner.tokens] in H. apply bind_ok in H as (sc' & S & H).
  destruct HG as [HG|HG].
  2:{ rewrite (after_bad_panics U t false cs HU _ HG) in S. discriminate. }
  destruct (token_eqb (tok sc') EOS) eqn:E; [inv H; cbn; auto|].
  apply token_eqb_neq in E. apply bind_ok in H as ([l' f'] & T & H). inv H.
  pose proof (scan_outcome U t false cs HU _ _ S) as O.
  pose proof (scan_token_ok _ _ HG S E) as TO.
  destruct (IH _ _ _ T (good_step U t false cs HU _ _ HG O)) as (F & C & N).
  split; [constructor; auto|]. split.
  - cbn [comment_next]. split; auto. destruct l' as [|k2 l']; auto. intros TY.
    destruct TO as (_ & _ & TO). rewrite TY in TO.
    apply N; auto; [|apply TO].
    cbn in TY. clear - O TY. inv O; try discriminate TY; auto.
    inv H1; discriminate TY.
  - intros TY ST P. assert (L : pos sc < len).
    { destruct (Nat.lt_ge_cases (pos sc) len); auto. exfalso. apply E.
      apply (scan_eos_iff U t false cs HU _ _ S). auto. }
    destruct P as [P|P]; [|lia]. clear - O ST P L E.
    inv O; cbn; auto; try congruence; try (exfalso; congruence).
    all: exfalso; try lia;
      first [ match goal with H : content_like _ _ |- _ => destruct H as [?|[[? _]|[? _]]]; congruence end
            | match goal with H : _ \/ _ |- _ => destruct H; congruence end
            | match goal with H : enter_tag _ _ _ |- _ => inv H; congruence end ].
Qed.

Lemma fold_step_token sc s : token_ok (token_of sc) ->
  fold_step U d void sc s = Ok (tstep s (token_of sc)).
Proof.
  intros (L1 & L2 & H). cbn in L1, L2. unfold fold_step, tstep. cbn [token_of tk_type tk_off tk_end] in *.
  unfold token_text, tk_text, closes_now. cbn [token_of tk_type tk_off tk_end].
  fold t in H. fold t.
  destruct (tok sc); auto;
    first [ destruct H as (A & B & _); rewrite slice_bd by auto; cbn [bind] | idtac ]; auto.
  all: repeat match goal with
    | |- context [if ?b then _ else _] => destruct b
    | |- context [match find_entry ?f ?s with _ => _ end] => destruct (find_entry f s) as [[? ?]|]
    end; auto.
Qed.

Lemma fold_loop_tokens fuel sc s : Good t sc \/ after_bad_char t sc ->
  fold_loop U d cs void fuel sc s =
  do ' (l, _) <- tokens U t false cs fuel sc; Ok (f_ranges (fold_left tstep l s)).
Proof.
  revert sc s. induction fuel as [|fuel IH]; intros sc s HG; [reflexivity|].
  cbn [fold_loop Scanner.tokens]. fold t.
  destruct (scan U t false cs sc) as [sc'|r|] eqn:S; cbn [bind]; auto.
  destruct HG as [HG|HG].
  2:{ rewrite (after_bad_panics U t false cs HU _ HG) in S. discriminate. }
  destruct (token_eqb (tok sc') EOS) eqn:E; [reflexivity|]. apply token_eqb_neq in E.
  rewrite fold_step_token by (eapply scan_token_ok; eauto). cbn [bind].
  rewrite IH.
  - destruct (tokens U t false cs fuel sc') as [[l f]|r|]; reflexivity.
  - apply (good_step U t false cs HU _ _ HG). apply scan_outcome; auto.
Qed.

(** ** The invariant *)
(** The line on which a range is closed, and the order in which ranges are found. *)
Definition close_line (r : frange) : nat :=
  match f_kind r with None => S (f_end r) | Some _ => f_end r end.
Definition compat (a b : frange) : Prop :=
  (f_start b <= f_start a /\ close_line a <= close_line b) \/ close_line a <= f_start b.
Definition entry_src (done : list token) (e : nat * str) : Prop :=
  exists l1 k l2, done = l1 ++ k :: l2 /\ fst e = ln (tk_off k) /\
    ((snd e = [] /\ tk_type k = Comment /\ region_start U (tk_text t k) = true) \/
     (snd e <> [] /\ tk_type k = StartTag /\ tk_text t k = snd e)).
Inductive K (done : list token) (a : nat) (s : fstate) : Prop :=
| mkK (k_bd : nat)
  (k_bd_ok : Bd t k_bd /\ k_bd <= a)
  (k_ranges : Forall (fun r => f_start r < f_end r /\ f_end r <= ln len /\
                              fold_source U d void done r /\ close_line r <= ln k_bd) (f_ranges s))
  (k_pairs : ForallOrdPairs compat (f_ranges s))
  (k_stack : Forall (fun e => fst e <= ln k_bd /\ entry_src done e) (f_stack s))
  (k_sorted : StronglySorted (fun e e' => fst e' <= fst e) (f_stack s))
  (k_cross : forall r e, In r (f_ranges s) -> In e (f_stack s) ->
              fst e <= f_start r \/ close_line r <= fst e)
  (k_last : match f_last s with Some x => last_name t done x /\ x <> [] | None => True end)
  (k_prev : match f_prev s with Some l => exists r, In r (f_ranges s) /\ f_start r = l | None => True end).

Lemma ln_mono a b : Bd t a -> Bd t b -> a <= b -> ln a <= ln b.
Proof.
  intros A B L. destruct (Nat.eq_dec a b) as [->|N]; auto.
  assert (P : pos_lt (position_at d a) (position_at d b)).
  { apply (do_mono _ HD); [lia|apply Bd_le in B; auto|apply Bd_boundary; auto|apply Bd_boundary; auto]. }
  unfold line_at. destruct P; lia.
Qed.
Lemma fold_source_app done k r : fold_source U d void done r -> fold_source U d void (done ++ [k]) r.
Proof.
  intros H. inv H.
  - apply from_element with (l1 := l1) (l2 := l2) (l3 := l3 ++ [k]); auto.
    rewrite <- app_assoc. cbn. rewrite <- app_assoc. auto.
  - apply from_region with (l1 := l1) (l2 := l2) (l3 := l3 ++ [k]); auto.
    rewrite <- app_assoc. cbn. rewrite <- app_assoc. auto.
  - apply from_comment with (l1 := l1) (l2 := l2 ++ [k]); auto. rewrite <- app_assoc. auto.
Qed.
Lemma entry_src_app done k e : entry_src done e -> entry_src (done ++ [k]) e.
Proof.
  intros (l1 & k1 & l2 & -> & H). exists l1, k1, (l2 ++ [k]). split; auto. rewrite <- app_assoc. auto.
Qed.
Lemma last_name_app done k x : last_name t done x -> tk_type k <> StartTag -> tk_type k <> EndTag ->
  last_name t (done ++ [k]) x.
Proof.
  intros (l1 & k1 & l2 & -> & T & X & F) N1 N2. exists l1, k1, (l2 ++ [k]). split; [rewrite <- app_assoc; auto|].
  split; auto. split; auto. apply Forall_app. auto.
Qed.
Lemma last_name_new done k : tk_type k = StartTag \/ tk_type k = EndTag ->
  last_name t (done ++ [k]) (tk_text t k).
Proof. intros T. exists done, k, []. auto. Qed.
Lemma last_name_suffix l1 k l2 x : tk_type k = StartTag \/ tk_type k = EndTag ->
  last_name t (l1 ++ k :: l2) x -> last_name t (k :: l2) x.
Proof.
  intros T (a & k1 & b & E & T1 & X & F).
  revert a E. induction l1 as [|y l1 IH]; intros a E; cbn in E.
  - exists a, k1, b. auto.
  - destruct a as [|z a].
    + cbn in E. inv E. exfalso. rewrite Forall_forall in F.
      destruct (F k) as [N1 N2]; [apply in_or_app; right; left; auto|]. tauto.
    + cbn in E. inv E. eapply IH; eauto.
Qed.
Lemma find_entry_some f stk l below : find_entry f stk = Some (l, below) ->
  exists above x, stk = above ++ (l, x) :: below /\ f x = true /\ Forall (fun e => f (snd e) = false) above.
Proof.
  induction stk as [|[m x] stk IH]; cbn [find_entry]; [discriminate|].
  destruct (f x) eqn:E; intros H.
  - inv H. exists [], x. auto.
  - destruct (IH H) as (a & y & -> & F & A). exists ((m, x) :: a), y. auto.
Qed.
Lemma sorted_suffix {A} (R : A -> A -> Prop) l1 x l2 : StronglySorted R (l1 ++ x :: l2) ->
  StronglySorted R l2 /\ Forall (R x) l2.
Proof.
  induction l1 as [|y l1 IH]; cbn; intros H; inv H; auto.
Qed.
Lemma pairs_snoc (l : list frange) r : ForallOrdPairs compat l -> Forall (fun a => compat a r) l ->
  ForallOrdPairs compat (l ++ [r]).
Proof.
  induction 1 as [|a l F P IH]; intros H; cbn.
  - repeat constructor.
  - inv H. constructor; auto. apply Forall_app. auto.
Qed.

Definition bound (k : token) : nat :=
  if token_eqb (tk_type k) Comment then Nat.min len (tk_end k + 3) else tk_end k.
Definition next_ok (a : nat) (k : token) : Prop :=
  a <= tk_off k \/ (tk_type k = EndCommentTag /\ a <= tk_end k).

(** A step that keeps or extends the record with a new boundary. *)
Lemma K_weaken done a s k a' : K done a s -> a <= a' -> tk_type k <> StartTag -> tk_type k <> EndTag ->
  K (done ++ [k]) a' s.
Proof.
  intros [c [B L] R P S SS C LN PV] La N1 N2. apply mkK with (k_bd := c); auto.
  - split; auto. lia.
  - eapply Forall_impl; [|exact R]. cbn. intros r (? & ? & ? & ?). eauto using fold_source_app.
  - eapply Forall_impl; [|exact S]. cbn. intros r (? & ?). eauto using entry_src_app.
  - destruct (f_last s); auto. destruct LN; split; auto using last_name_app.
Qed.

(** Popping the stack and possibly adding a range. *)
Lemma K_pop done a s l x above below r c' :
  K done a s -> f_stack s = above ++ (l, x) :: below ->
  Bd t c' -> a <= c' -> f_start r = l -> close_line r <= ln c' ->
  (forall c, Bd t c -> c <= a -> ln c <= close_line r) ->
  f_start r < f_end r -> f_end r <= ln len -> fold_source U d void done r ->
  K done c' (mkFS (f_ranges s ++ [r]) below (f_last s) (Some l)).
Proof.
  intros [c [B L] R P S SS C LN PV] E B' La Hs Hc Hl H1 H2 H3.
  assert (M : ln c <= ln c') by (apply ln_mono; auto; lia).
  rewrite E in S, SS. apply Forall_app in S as [_ S]. inv S. destruct H4 as [Q1 Q2]. cbn in Q1.
  apply sorted_suffix in SS as [SS1 SS2]. cbn in SS2.
  apply mkK with (k_bd := c'); cbn [f_ranges f_stack f_last f_prev]; auto.
  - apply Forall_app; split; [|repeat constructor; auto].
    eapply Forall_impl; [|exact R]. cbn. intros r' (? & ? & ? & ?). repeat split; auto. lia.
  - apply pairs_snoc; auto. apply Forall_forall. intros r' I. rewrite Forall_forall in R.
    specialize (R _ I) as (? & ? & ? & ?). specialize (Hl c B L).
    destruct (C r' (f_start r, x) I) as [C1|C1].
    { rewrite E. apply in_or_app. right. left. auto. }
    + left. split; auto. lia.
    + right. cbn in C1. auto.
  - eapply Forall_impl; [|exact H5]. cbn. intros e (? & ?). split; auto. lia.
  - intros r' e I J. apply in_app_iff in I as [I|[<-|[]]].
    + apply C; auto. rewrite E. apply in_or_app. right. right. auto.
    + rewrite Forall_forall in SS2. left. apply SS2; auto.
  - exists r. split; auto. apply in_or_app. right. left. auto.
Qed.
Lemma K_drop done a s l x above below : K done a s -> f_stack s = above ++ (l, x) :: below ->
  K done a (mkFS (f_ranges s) below (f_last s) (f_prev s)).
Proof.
  intros [c [B L] R P S SS C LN PV] E.
  rewrite E in S, SS. apply Forall_app in S as [_ S]. inv S.
  apply sorted_suffix in SS as [SS1 SS2].
  apply mkK with (k_bd := c); cbn [f_ranges f_stack f_last f_prev]; auto.
  intros r' e I J. apply C; auto. rewrite E. apply in_or_app. right. right. auto.
Qed.
Lemma K_push done a s k c' : K done a s -> Bd t c' -> a <= c' -> a <= tk_off k -> tk_off k <= c' -> Bd t (tk_off k) ->
  forall x la, entry_src (done ++ [k]) (ln (tk_off k), x) ->
  match la with Some x => last_name t (done ++ [k]) x /\ x <> [] | None => True end ->
  K (done ++ [k]) c' (mkFS (f_ranges s) ((ln (tk_off k), x) :: f_stack s) la (f_prev s)).
Proof.
  intros [c [B L] R P S SS C LN PV] B' L1 L2 L3 B2 x la E LA.
  assert (M : ln c <= ln c') by (apply ln_mono; auto; lia).
  assert (M1 : ln c <= ln (tk_off k)) by (apply ln_mono; auto; lia).
  assert (M2 : ln (tk_off k) <= ln c') by (apply ln_mono; auto; lia).
  apply mkK with (k_bd := c'); cbn [f_ranges f_stack f_last f_prev]; auto.
  - eapply Forall_impl; [|exact R]. cbn. intros r' (? & ? & ? & ?). repeat split; auto using fold_source_app. lia.
  - constructor; auto. eapply Forall_impl; [|exact S]. cbn. intros e (? & ?).
    split; auto using entry_src_app. lia.
  - constructor; auto. eapply Forall_impl; [|exact S]. cbn. intros e (? & ?). lia.
  - intros r e I [<-|J]; auto. rewrite Forall_forall in R. specialize (R _ I) as (? & ? & ? & ?).
    right. cbn. lia.
Qed.
Lemma K_comment done a s k : K done a s -> token_ok k -> tk_type k = Comment -> a <= tk_off k ->
  region_start U (tk_text t k) = false -> region_end U (tk_text t k) = false ->
  ln (tk_off k) < ln (tk_end k + 3) ->
  K (done ++ [k]) (bound k)
    (mkFS (f_ranges s ++ [mkF (ln (tk_off k)) (ln (tk_end k + 3)) (Some KComment)])
          (f_stack s) (f_last s) (Some (ln (tk_off k)))).
Proof.
  intros [c [B L] R P S SS C LN PV] (O1 & O2 & O) TY La RS RE LT. rewrite TY in O. destruct O as (B1 & B2 & PR).
  unfold bound. rewrite TY. cbn [token_eqb].
  assert (B' : Bd t (Nat.min len (tk_end k + 3)) /\ ln (Nat.min len (tk_end k + 3)) = ln (tk_end k + 3)).
  { destruct PR as [PR|PR].
    - assert (Q : Bd t (tk_end k + 3)) by (apply (Bd_prefix t _ (bs "-->")); auto; discriminate).
      rewrite Nat.min_r by (apply Bd_le; auto). auto.
    - rewrite Nat.min_l by lia. split; [apply Bd_len; auto|].
      unfold line_at. rewrite (do_clamp d HD (tk_end k + 3)); auto. fold t. lia. }
  destruct B' as [B' E'].
  assert (M1 : ln c <= ln (tk_off k)) by (apply ln_mono; auto; lia).
  assert (ML : ln (tk_end k + 3) <= ln len).
  { rewrite <- E'. apply ln_mono; auto; [apply Bd_len; auto|lia]. }
  apply mkK with (k_bd := Nat.min len (tk_end k + 3)); cbn [f_ranges f_stack f_last f_prev]; auto.
  - apply Forall_app; split.
    + eapply Forall_impl; [|exact R]. cbn. intros r' (? & ? & ? & ?). repeat split; auto using fold_source_app. lia.
    + constructor; auto. cbn. split; auto. split; auto. split.
      * eapply from_comment; eauto.
      * unfold close_line. cbn. lia.
  - apply pairs_snoc; auto. apply Forall_forall. intros r' I. rewrite Forall_forall in R.
    specialize (R _ I) as (? & ? & ? & ?). right. cbn. lia.
  - eapply Forall_impl; [|exact S]. cbn. intros e (? & ?). split; auto using entry_src_app. lia.
  - intros r' e I J. apply in_app_iff in I as [I|[<-|[]]]; auto. left. cbn.
    rewrite Forall_forall in S. specialize (S _ J) as (? & ?). lia.
  - destruct (f_last s); auto. destruct LN; split; auto. apply last_name_app; auto; congruence.
  - eexists. split; [apply in_or_app; right; left; reflexivity|]. auto.
Qed.
Lemma K_step done a s k : K done a s -> token_ok k -> next_ok a k -> K (done ++ [k]) (bound k) (tstep s k).
Proof.
  intros HK TO NO. assert (TO' := TO). destruct TO' as (O1 & O2 & O).
  assert (LA : tk_type k <> Comment -> a <= bound k).
  { intros N. unfold bound. apply token_eqb_neq in N. rewrite N. destruct NO as [|[_ ?]]; lia. }
  assert (LO : tk_type k <> EndCommentTag -> a <= tk_off k) by (destruct NO as [|[? _]]; tauto).
  assert (CL : is_closer k -> Bd t (tk_end k) -> K (done ++ [k]) (bound k)
    (if closes_now k (f_last s) then
        match find_entry (fun x => match f_last s with Some y => beq x y | None => false end) (f_stack s) with
        | None => s
        | Some (l, below) =>
            let e := ln (tk_end k) in
            if (l + 1 <? e) && differs (f_prev s) l
            then mkFS (f_ranges s ++ [mkF l (e - 1) None]) below (f_last s) (Some l)
            else mkFS (f_ranges s) below (f_last s) (f_prev s)
        end
      else s)).
  { intros CC BE. assert (TY : tk_type k <> Comment /\ tk_type k <> StartTag /\ tk_type k <> EndTag /\ tk_type k <> EndCommentTag).
    { destruct CC as [E|[E|E]]; rewrite E; repeat split; discriminate. }
    destruct TY as (T1 & T2 & T3 & T4). specialize (LO T4).
    assert (BK : bound k = tk_end k).
    { unfold bound. apply token_eqb_neq in T1. rewrite T1. auto. }
    assert (HK' : K (done ++ [k]) (bound k) s) by (eapply K_weaken; eauto).
    destruct (closes_now k (f_last s)) eqn:CN; auto.
    destruct (find_entry _ _) as [[l below]|] eqn:FE; auto.
    apply find_entry_some in FE as (above & x & E & FX & _).
    cbv zeta. destruct ((l + 1 <? ln (tk_end k)) && differs (f_prev s) l) eqn:G.
    2:{ eapply K_drop; eauto. }
    rewrite andb_true_iff, Nat.ltb_lt in G. destruct G as [G _].
    rewrite BK in *. destruct (f_last s) as [y|] eqn:EL; [|discriminate].
    apply beq_eq in FX. subst x.
    assert (HE : entry_src done (l, y)).
    { inversion HK as [c BC R P S SS C LN PV]. rewrite E in S. apply Forall_app in S as [_ S]. inv S. tauto. }
    assert (LL : last_name t done y /\ y <> []).
    { inversion HK as [c BC R P S SS C LN PV]. rewrite EL in LN. auto. }
    rewrite <- EL. eapply K_pop with (x := y); eauto.
    - unfold close_line. cbn. lia.
    - intros c B L. unfold close_line. cbn. apply (ln_mono _ _ B BE) in L. lia.
    - cbn. lia.
    - cbn. pose proof (ln_mono _ _ BE (Bd_len _ HU) O2). lia.
    - destruct HE as (l1 & k1 & l2 & -> & E1 & [E2|(E2 & E3 & E4)]); [tauto|].
      cbn in E1, E2, E4. subst l.
      eapply from_element with (l1 := l1) (l2 := l2) (l3 := []); auto.
      + rewrite <- app_assoc. auto.
      + fold t. rewrite E4. apply last_name_suffix with (l1 := l1); tauto.
      + fold t. rewrite E4. intros TY. unfold closes_now in CN. rewrite TY in CN. auto. }
  unfold tstep. fold t.
  destruct (tk_type k) eqn:TY;
    try (apply (K_weaken _ a); auto; try congruence; apply LA; discriminate);
    try (apply CL; [unfold is_closer; rewrite TY; auto|exact O]).
  all: specialize (LO ltac:(discriminate)); clear CL.
  - (* Comment *)
    destruct O as (B1 & B2 & PR).
    assert (BL : a <= bound k).
    { unfold bound. rewrite TY. cbn. lia. }
    assert (HK' : K (done ++ [k]) (bound k) s) by (apply (K_weaken _ a); auto; congruence).
    destruct (region_start U (tk_text t k)) eqn:RS.
    { assert (Z : K (done ++ [k]) (tk_end k) (mkFS (f_ranges s) ((ln (tk_off k), []) :: f_stack s) (f_last s) (f_prev s))).
      { apply (K_push _ a); auto; try lia.
        - exists done, k, []. cbn. auto 10.
        - inversion HK' as [c BC R P S SS C LN PV]. auto. }
      inversion Z as [c [BC LC] R P S SS C LN PV]. apply mkK with (k_bd := c); auto.
      split; auto. unfold bound. rewrite TY. cbn. lia. }
    destruct (region_end U (tk_text t k)) eqn:RE.
    + destruct (find_entry _ _) as [[l below]|] eqn:FE; auto.
      apply find_entry_some in FE as (above & x & E & FX & _).
      destruct ((l <? ln (tk_off k)) && differs (f_prev s) l) eqn:G.
      2:{ eapply K_drop; eauto. }
      rewrite andb_true_iff, Nat.ltb_lt in G. destruct G as [G _].
      assert (HE : entry_src done (l, x)).
      { inversion HK as [c BC R P S SS C LN PV]. rewrite E in S. apply Forall_app in S as [_ S]. inv S. tauto. }
      assert (Z : K (done ++ [k]) (tk_end k)
        (mkFS (f_ranges s ++ [mkF l (ln (tk_off k)) (Some KRegion)]) below (f_last s) (Some l))).
      { assert (HK2 : K (done ++ [k]) (tk_off k) s) by (apply (K_weaken _ a); auto; congruence).
        eapply (K_pop _ (tk_off k)); eauto.
        - unfold close_line. cbn. apply ln_mono; auto.
        - intros c B L. unfold close_line. cbn. apply ln_mono; auto.
        - cbn. apply ln_mono; auto; [apply Bd_len; auto|lia].
        - destruct HE as (l1 & k1 & l2 & -> & E1 & [(E2 & E3 & E4)|(E2 & _)]).
          + cbn in E1, E2. subst l.
            apply from_region with (l1 := l1) (l2 := l2) (l3 := []); auto. rewrite <- app_assoc. auto.
          + exfalso. cbn in E2. destruct x; [congruence|discriminate]. }
      inversion Z as [c [BC LC] R P S SS C LN PV]. apply mkK with (k_bd := c); auto.
      split; auto. unfold bound. rewrite TY. cbn. lia.
    + cbv zeta. destruct (ln (tk_off k) <? ln (tk_end k + 3)) eqn:G; auto.
      apply Nat.ltb_lt in G. apply (K_comment _ a); auto.
  - (* StartTag *)
    destruct O as (B1 & B2 & LT).
    assert (NE : tk_text t k <> []).
    { intros E. apply (f_equal (@length _)) in E.
      unfold tk_text in E. rewrite sub_length in E by auto. cbn in E. lia. }
    assert (BK : bound k = tk_end k) by (unfold bound; rewrite TY; auto).
    rewrite BK. apply (K_push _ a); auto; try lia.
    + exists done, k, []. cbn. auto 10.
    + split; auto. apply last_name_new; auto.
  - (* EndTag *)
    destruct O as (B1 & B2 & LT).
    inversion HK as [c [BC LC] R P S SS C LN PV].
    apply mkK with (k_bd := c); cbn [f_ranges f_stack f_last f_prev]; auto.
    + split; auto. specialize (LA ltac:(discriminate)). lia.
    + eapply Forall_impl; [|exact R]. cbn. intros r (? & ? & ? & ?). eauto using fold_source_app.
    + eapply Forall_impl; [|exact S]. cbn. intros r (? & ?). eauto using entry_src_app.
    + split; [apply last_name_new; auto|]. intros E. apply (f_equal (@length _)) in E.
      unfold tk_text in E. rewrite sub_length in E by auto. cbn in E. lia.
Qed.
Lemma K_fold p q : forall done a b s, K done a s -> Forall token_ok (p ++ q) -> comment_next (p ++ q) ->
  tiles b (p ++ q) len -> match p ++ q with k :: _ => next_ok a k | [] => True end ->
  exists a', K (done ++ p) a' (fold_left tstep p s) /\ match q with k :: _ => next_ok a' k | [] => True end.
Proof.
  induction p as [|k l IH]; intros done a b s HK F C T N; cbn [fold_left app].
  - exists a. rewrite app_nil_r. auto.
  - cbn [app] in *. inv F. cbn in T. destruct T as (T1 & T2 & T3 & T4). cbn [comment_next] in C. destruct C as [C1 C2].
    replace (done ++ k :: l) with ((done ++ [k]) ++ l) by (rewrite <- app_assoc; auto).
    apply (IH (done ++ [k]) (bound k) (tk_end k)); auto.
    + apply (K_step _ a); auto.
    + destruct (l ++ q) as [|k2 l']; auto. cbn in T4. unfold next_ok, bound.
      destruct (token_eqb (tk_type k) Comment) eqn:E.
      * apply token_eqb_eq in E. destruct (C1 E). right. split; auto. lia.
      * left. lia.
Qed.
Lemma K_start : K [] 0 fstate0.
Proof.
  apply mkK with (k_bd := 0); cbn; auto; try constructor; auto. apply Bd_0; auto. all: tauto.
Qed.
Lemma good_start : Good t (scanner_new 0 WithinContent).
Proof. intros _. left. apply Bd_0. auto. Qed.
Lemma all_ranges_tokens : all_ranges U d cs void =
  do l <- fold_tokens U t cs; Ok (f_ranges (fold_left tstep l fstate0)).
Proof.
  unfold all_ranges, fold_tokens. rewrite fold_loop_tokens by (left; apply good_start). fold t.
  unfold scan_fuel. destruct (tokens _ _ _ _ _ _) as [[l f]|r|]; auto.
Qed.
Lemma fold_tokens_facts l : fold_tokens U t cs = Ok l ->
  Forall token_ok l /\ comment_next l /\ tiles 0 l len.
Proof.
  unfold fold_tokens. intros H. apply bind_ok in H as ([l' f] & T & H). inv H.
  destruct (tokens_fold_ok _ _ _ _ T (or_introl good_start)) as (F & C & _).
  apply tokens_tile in T as [T _]; [|auto|cbn; lia]. auto.
Qed.
Lemma fold_tokens_fuel : fold_tokens U t cs <> OutOfFuel.
Proof.
  unfold fold_tokens. destruct (tokens _ _ _ _ _ _) as [[l f]|r|] eqn:E; cbn; try discriminate.
  exfalso. revert E. apply tokens_no_fuel; auto; [lia|].
  unfold measure. cbn. destruct (length t <=? 0); lia.
Qed.
Lemma K_prefix l p q : fold_tokens U t cs = Ok l -> l = p ++ q ->
  exists a, K p a (fold_left tstep p fstate0) /\ match q with k :: _ => next_ok a k | [] => True end.
Proof.
  intros H ->. destruct (fold_tokens_facts _ H) as (F & C & T).
  apply (K_fold p q [] 0 0 fstate0); auto using K_start.
  destruct (p ++ q); auto. cbn in T. left. lia.
Qed.
Lemma K_all l : fold_tokens U t cs = Ok l -> exists a, K l a (fold_left tstep l fstate0).
Proof.
  intros H. destruct (K_prefix l l [] H) as (a & A & _); [rewrite app_nil_r; auto|]. eauto.
Qed.

(** ** Completeness *)
(** Tokens folding ignores. *)
Definition neutral (k : token) : Prop :=
  tk_type k <> StartTag /\ tk_type k <> EndTag /\ tk_type k <> Comment /\ ~ is_closer k.
(** Markup in which every element that is opened is closed by an end tag written
    like its start tag, by [/>], or is void, and every region is ended. *)
Inductive balanced : list token -> Prop :=
| bal_nil : balanced []
| bal_other k l : neutral k -> balanced l -> balanced (k :: l)
| bal_comment k l : tk_type k = Comment -> region_start U (tk_text t k) = false ->
    region_end U (tk_text t k) = false -> balanced l -> balanced (k :: l)
| bal_region k1 body k2 l : tk_type k1 = Comment -> region_start U (tk_text t k1) = true ->
    balanced body -> tk_type k2 = Comment -> region_start U (tk_text t k2) = false ->
    region_end U (tk_text t k2) = true -> balanced l -> balanced (k1 :: body ++ k2 :: l)
| bal_element el l : element el -> balanced l -> balanced (el ++ l)
| bal_void k1 a1 k2 l : tk_type k1 = StartTag -> Forall neutral a1 ->
    (tk_type k2 = StartTagClose /\ is_void_element (tk_text t k1) void = true \/
     tk_type k2 = StartTagSelfClose) -> balanced l -> balanced (k1 :: a1 ++ k2 :: l)
with element : list token -> Prop :=
| element_i k1 a1 k2 body k3 a2 k4 : tk_type k1 = StartTag -> Forall neutral a1 ->
    tk_type k2 = StartTagClose -> is_void_element (tk_text t k1) void = false ->
    balanced body -> tk_type k3 = EndTag -> tk_text t k3 = tk_text t k1 -> Forall neutral a2 ->
    tk_type k4 = EndTagClose ->
    element (k1 :: a1 ++ k2 :: body ++ k3 :: a2 ++ [k4]).
Scheme balanced_mind := Induction for balanced Sort Prop
  with element_mind := Induction for element Sort Prop.

Lemma tstep_neutral s k : neutral k -> tstep s k = s.
Proof.
  intros (N1 & N2 & N3 & N4). unfold is_closer in N4. unfold tstep.
  destruct (tk_type k); auto; try congruence; exfalso; tauto.
Qed.
Lemma fold_neutral l s : Forall neutral l -> fold_left tstep l s = s.
Proof. induction 1 in s |- *; cbn; auto. rewrite tstep_neutral; auto. Qed.

(** Processing balanced tokens restores the stack; [f_prev] is the start of the
    last range added, if any. *)
Definition restores (s s' : fstate) : Prop :=
  f_stack s' = f_stack s /\ exists extra, f_ranges s' = f_ranges s ++ extra /\
    f_prev s' = match rev extra with [] => f_prev s | r :: _ => Some (f_start r) end.
Lemma restores_refl s : restores s s.
Proof. split; auto. exists []. rewrite app_nil_r. auto. Qed.
Lemma restores_trans s1 s2 s3 : restores s1 s2 -> restores s2 s3 -> restores s1 s3.
Proof.
  intros (A & x & B & C) (A' & y & B' & C'). split; [congruence|]. exists (x ++ y).
  split; [rewrite B', B, app_assoc; auto|]. rewrite rev_app_distr, C'.
  destruct (rev y); cbn; auto.
Qed.
Lemma beq_refl x : beq x x = true.
Proof. apply beq_eq. auto. Qed.

Lemma close_restores s k l x stk : is_closer k -> closes_now k (f_last s) = true ->
  f_last s = Some x -> f_stack s = (l, x) :: stk ->
  f_stack (tstep s k) = stk /\ exists extra, f_ranges (tstep s k) = f_ranges s ++ extra /\
    f_prev (tstep s k) = match rev extra with [] => f_prev s | r :: _ => Some (f_start r) end.
Proof.
  intros C N L E. unfold tstep.
  assert (Q : exists s', tstep s k = s' /\
    f_stack s' = stk /\ exists extra, f_ranges s' = f_ranges s ++ extra /\
    f_prev s' = match rev extra with [] => f_prev s | r :: _ => Some (f_start r) end).
  { unfold tstep. destruct C as [C|[C|C]]; rewrite C, N, L, E; cbn [find_entry]; rewrite beq_refl.
    all: destruct (_ && _); eexists; (split; [reflexivity|]); cbn; split; auto.
    all: try (exists []; rewrite app_nil_r; auto; fail).
    all: eexists; split; [reflexivity|]; reflexivity. }
  destruct Q as (s' & <- & Q). exact Q.
Qed.

Lemma open_state s k1 : tk_type k1 = StartTag ->
  tstep s k1 = mkFS (f_ranges s) ((ln (tk_off k1), tk_text t k1) :: f_stack s) (Some (tk_text t k1)) (f_prev s).
Proof. intros E. unfold tstep. rewrite E. auto. Qed.
Lemma inner_state s k1 a1 k2 : tk_type k1 = StartTag -> Forall neutral a1 -> tk_type k2 = StartTagClose ->
  is_void_element (tk_text t k1) void = false ->
  fold_left tstep (k1 :: a1 ++ [k2]) s =
  mkFS (f_ranges s) ((ln (tk_off k1), tk_text t k1) :: f_stack s) (Some (tk_text t k1)) (f_prev s).
Proof.
  intros T1 N T2 V. cbn [fold_left]. rewrite fold_left_app, (fold_neutral a1) by auto. cbn [fold_left].
  rewrite (open_state s k1) by auto. unfold tstep. rewrite T2. unfold closes_now. rewrite T2. cbn. rewrite V. auto.
Qed.
Lemma element_split (k1 : token) a1 k2 body k3 a2 :
  (k1 :: a1 ++ k2 :: body ++ k3 :: a2) = (k1 :: a1 ++ [k2]) ++ body ++ k3 :: a2.
Proof. cbn. rewrite <- app_assoc. auto. Qed.

Lemma balanced_restores l : balanced l -> forall s, restores s (fold_left tstep l s).
Proof.
  intros H. induction H using balanced_mind with
    (P0 := fun el _ => forall s, restores s (fold_left tstep el s)); intros s.
  - apply restores_refl.
  - cbn [fold_left]. rewrite tstep_neutral; auto.
  - cbn [fold_left]. eapply restores_trans; [|apply IHbalanced].
    unfold tstep. rewrite e, e0, e1. destruct (_ <? _); [|apply restores_refl].
    split; auto. eexists. split; [reflexivity|]. auto.
  - cbn [fold_left]. rewrite fold_left_app. cbn [fold_left].
    eapply restores_trans; [|apply IHbalanced2].
    assert (E1 : tstep s k1 = mkFS (f_ranges s) ((ln (tk_off k1), []) :: f_stack s) (f_last s) (f_prev s)).
    { unfold tstep. rewrite e, e0. auto. }
    rewrite E1. set (s1 := mkFS _ _ _ _) in *. destruct (IHbalanced1 s1) as (A & x & B & C).
    set (s2 := fold_left tstep body s1) in *. unfold tstep. rewrite e1, e2, e3, A.
    cbn [s1 f_stack find_entry nonempty_str negb].
    destruct (_ && _); (split; [reflexivity|]); cbn [f_ranges f_prev].
    + exists (x ++ [mkF (ln (tk_off k1)) (ln (tk_off k2)) (Some KRegion)]).
      rewrite B, <- app_assoc. split; auto. rewrite rev_app_distr. auto.
    + exists x. auto.
  - rewrite fold_left_app. eapply restores_trans; eauto.
  - cbn [fold_left]. rewrite fold_left_app, (fold_neutral a1) by auto. cbn [fold_left].
    eapply restores_trans; [|apply IHbalanced]. rewrite (open_state s k1) by auto.
    match goal with |- restores s (tstep ?x k2) => set (s1 := x) end.
    destruct (close_restores s1 k2 (ln (tk_off k1)) (tk_text t k1) (f_stack s)) as (A & x & B & C); auto.
    + unfold is_closer. tauto.
    + unfold closes_now. cbn [s1 f_last]. destruct o as [[_ ->]| ->]; [apply orb_true_r|auto].
    + split; auto. exists x. auto.
  - change (k1 :: a1 ++ k2 :: body ++ k3 :: a2 ++ [k4]) with (k1 :: a1 ++ k2 :: body ++ k3 :: (a2 ++ [k4])).
    rewrite element_split, !fold_left_app, (inner_state s k1 a1 k2) by auto. cbn [fold_left].
    set (s1 := mkFS _ _ _ _). destruct (IHbalanced s1) as (A & x & B & C).
    set (s2 := fold_left tstep body s1) in *.
    assert (E3 : tstep s2 k3 = mkFS (f_ranges s2) (f_stack s2) (Some (tk_text t k1)) (f_prev s2)).
    { unfold tstep. rewrite e2, e3. auto. }
    rewrite E3, fold_left_app, (fold_neutral a2) by auto. cbn [fold_left].
    set (s3 := mkFS _ _ _ _).
    destruct (close_restores s3 k4 (ln (tk_off k1)) (tk_text t k1) (f_stack s)) as (A' & y & B' & C'); auto.
    + unfold is_closer. tauto.
    + unfold closes_now. rewrite e4. auto.
    + split; auto. exists (x ++ y). rewrite B'. cbn [s3 f_ranges]. rewrite B, app_assoc. split; auto.
      rewrite C', rev_app_distr. cbn [s3 f_prev]. rewrite C. destruct (rev y); auto.
Qed.
Lemma tstep_keeps s k r : In r (f_ranges s) -> In r (f_ranges (tstep s k)).
Proof.
  intros I. unfold tstep.
  destruct (tk_type k); auto; repeat match goal with
    | |- context [if ?b then _ else _] => destruct b
    | |- context [match find_entry ?f ?s with _ => _ end] => destruct (find_entry f s) as [[? ?]|]
    end; cbn [f_ranges]; auto; apply in_or_app; auto.
Qed.
Lemma fold_keeps l : forall s r, In r (f_ranges s) -> In r (f_ranges (fold_left tstep l s)).
Proof. induction l; intros s r I; cbn [fold_left]; auto using tstep_keeps. Qed.

Lemma element_folds l l1 k1 mid k4 l3 : fold_tokens U t cs = Ok l -> l = l1 ++ (k1 :: mid ++ [k4]) ++ l3 ->
  element (k1 :: mid ++ [k4]) -> ln (tk_off k1) + 1 < ln (tk_end k4) ->
  exists r, In r (f_ranges (fold_left tstep l fstate0)) /\ f_start r = ln (tk_off k1) /\
    (r = mkF (ln (tk_off k1)) (ln (tk_end k4) - 1) None \/ close_line r <= ln (tk_end k4)).
Proof.
  intros HL -> EL LT.
  remember (k1 :: mid ++ [k4]) as el eqn:Eel. destruct EL as [k1' a1 k2 body k3 a2 k4' T1 N1 T2 V B T3 X N2 T4].
  assert (E : k1' = k1 /\ k4' = k4 /\ mid = a1 ++ k2 :: body ++ k3 :: a2).
  { inversion Eel as [[E1 E2]]. split; auto.
    replace (a1 ++ k2 :: body ++ k3 :: a2 ++ [k4']) with ((a1 ++ k2 :: body ++ k3 :: a2) ++ [k4']) in E2.
    - apply app_inj_tail in E2 as [E2 E3]. auto.
    - rewrite <- app_assoc. cbn. rewrite <- app_assoc. auto. }
  destruct E as (-> & -> & ->). clear Eel.
  rewrite !fold_left_app.
  match goal with |- context [fold_left tstep l3 ?s] => set (s5 := s) end.
  assert (Q : exists r, In r (f_ranges s5) /\ f_start r = ln (tk_off k1) /\
    (r = mkF (ln (tk_off k1)) (ln (tk_end k4) - 1) None \/ close_line r <= ln (tk_end k4))).
  2:{ destruct Q as (r & I & Q). exists r. split; auto. apply fold_keeps. auto. }
  set (s0 := fold_left tstep l1 fstate0) in *. set (pre := k1 :: a1 ++ k2 :: body ++ k3 :: a2).
  set (s4 := fold_left tstep pre s0).
  assert (E5 : s5 = tstep s4 k4).
  { unfold s5, s4, pre. change (k1 :: a1 ++ k2 :: body ++ k3 :: a2 ++ [k4]) with (k1 :: a1 ++ k2 :: body ++ k3 :: (a2 ++ [k4])).
    rewrite !element_split, !fold_left_app. cbn [fold_left]. rewrite !fold_left_app. reflexivity. }
  assert (E4 : exists x, f_stack s4 = (ln (tk_off k1), tk_text t k1) :: f_stack s0 /\
    f_last s4 = Some (tk_text t k1) /\ x = f_prev s4).
  { unfold s4, pre. rewrite element_split, !fold_left_app, (inner_state s0 k1 a1 k2) by auto. cbn [fold_left].
    set (s1 := mkFS _ _ _ _). destruct (balanced_restores _ B s1) as (A & _).
    set (s2 := fold_left tstep body s1) in *.
    assert (E3 : tstep s2 k3 = mkFS (f_ranges s2) (f_stack s2) (Some (tk_text t k1)) (f_prev s2)).
    { unfold tstep. rewrite T3, X. auto. }
    rewrite E3, (fold_neutral a2) by auto. eexists. split; [exact A|]. auto. }
  destruct E4 as (_ & S4 & L4 & _).
  destruct (K_prefix _ (l1 ++ pre) (k4 :: l3) HL) as (a & HK & NK).
  { rewrite <- app_assoc. f_equal. unfold pre. cbn. f_equal. rewrite <- !app_assoc. cbn. f_equal. f_equal.
    rewrite <- !app_assoc. cbn. f_equal. f_equal. rewrite <- app_assoc. auto. }
  rewrite fold_left_app in HK. fold s0 in HK. fold s4 in HK.
  assert (TO : token_ok k4).
  { destruct (fold_tokens_facts _ HL) as (F & _). rewrite Forall_forall in F. apply F.
    apply in_or_app. right. apply in_or_app. left. right. apply in_or_app. right. right.
    apply in_or_app. right. right. apply in_or_app. right. left. auto. }
  destruct TO as (_ & O2 & O). rewrite T4 in O.
  destruct NK as [NK|[NK _]]; [|congruence].
  destruct HK as [c [BC LC] R P S SS C LN PV].
  rewrite E5. unfold tstep. rewrite T4. unfold closes_now. rewrite T4, L4, S4. cbn [token_eqb negb orb find_entry].
  rewrite beq_refl. replace (ln (tk_off k1) + 1 <? ln (tk_end k4)) with true by (symmetry; apply Nat.ltb_lt; auto).
  cbn [andb]. destruct (differs (f_prev s4) (ln (tk_off k1))) eqn:DF; cbn [f_ranges].
  - eexists. split; [apply in_or_app; right; left; reflexivity|]. auto.
  - unfold differs in DF. destruct (f_prev s4) as [m|]; [|discriminate].
    apply negb_false_iff, Nat.eqb_eq in DF. subst m. destruct PV as (r & I & E).
    exists r. split; auto. split; auto. right. rewrite Forall_forall in R.
    specialize (R _ I) as (_ & _ & _ & R).
    assert (ln c <= ln (tk_end k4)).
    { apply ln_mono; auto. cbn in O2. assert (tk_off k4 <= tk_end k4).
      { destruct (fold_tokens_facts _ HL) as (F & _). rewrite Forall_forall in F. apply (F k4).
        apply in_or_app. right. apply in_or_app. left. right. apply in_or_app. right. right.
        apply in_or_app. right. right. apply in_or_app. right. left. auto. }
      lia. }
    lia.
Qed.
Lemma comment_folds l k : fold_tokens U t cs = Ok l -> In k l -> tk_type k = Comment ->
  region_start U (tk_text t k) = false -> region_end U (tk_text t k) = false ->
  ln (tk_off k) < ln (tk_end k + 3) ->
  In (mkF (ln (tk_off k)) (ln (tk_end k + 3)) (Some KComment)) (f_ranges (fold_left tstep l fstate0)).
Proof.
  intros _ I T A B L. apply in_split in I as (l1 & l2 & ->). rewrite fold_left_app. cbn [fold_left].
  apply fold_keeps. unfold tstep. rewrite T, A, B. apply Nat.ltb_lt in L. rewrite L. cbn [f_ranges].
  apply in_or_app. right. left. auto.
Qed.
End F.

(** ** Theorems *)
(** The two ways the limit is passed on. *)
Lemma unlimited U d void cs : get_folding_ranges U d None void cs = all_ranges U d cs void.
Proof. unfold get_folding_ranges. destruct (all_ranges _ _ _ _); auto. Qed.

(** C34. Folding succeeds exactly when the document scans. Every range covers at
    least two lines, all inside the document, and comes from the document: from a
    start tag and a later tag that closes a tag of that name, from the two comments of a
    region, or from one comment. *)
Theorem C34_ranges : forall U d cs void, textdoc_ok d ->
  match fold_tokens U (d_text d) cs with
  | Ok l => exists rs, get_folding_ranges U d None void cs = Ok rs /\
      forall r, In r rs -> f_start r < f_end r /\
        f_end r <= line (position_at d (length (d_text d))) /\ fold_source U d void l r
  | Panic p => get_folding_ranges U d None void cs = Panic p
  | OutOfFuel => False
  end.
Proof.
  intros U d cs void HD. rewrite unlimited, (all_ranges_tokens U d cs void HD).
  pose proof (fold_tokens_fuel U d cs HD) as NF.
  destruct (fold_tokens U (d_text d) cs) as [l|p|] eqn:E; cbn [bind]; auto.
  destruct (K_all U d cs void HD l E) as (a & [c BC R P S SS C LN PV]).
  eexists. split; [reflexivity|]. intros r I. rewrite Forall_forall in R.
  destruct (R r I) as (A1 & A2 & A3 & _). auto.
Qed.
Print Assumptions C34_ranges.

(** C47. Of two ranges, the one found later starts no later and is closed on the
    same line or below, or starts on or below the line on which the first is
    closed. So element ranges (closed on the line after their last one) nest or
    are disjoint; with comments and regions, one line may be shared. *)
Theorem C47_nested : forall U d cs void rs, textdoc_ok d ->
  get_folding_ranges U d None void cs = Ok rs ->
  forall i j a b, i < j -> nth_error rs i = Some a -> nth_error rs j = Some b ->
    (f_start b <= f_start a /\ close_line a <= close_line b) \/ close_line a <= f_start b.
Proof.
  intros U d cs void rs HD H. rewrite unlimited, (all_ranges_tokens U d cs void HD) in H.
  apply bind_ok in H as (l & E & H). apply Ok_inj in H. subst rs.
  destruct (K_all U d cs void HD l E) as (a & [c BC R P S SS C LN PV]).
  clear - P. induction P as [|x q F P IH]; intros i j u v L A B.
  - destruct i; discriminate.
  - destruct j as [|j]; [lia|]. cbn in B. destruct i as [|i]; cbn in A.
    + injection A as <-. rewrite Forall_forall in F. apply F. eapply nth_error_In; eauto.
    + eapply (IH i j); eauto. lia.
Qed.
Print Assumptions C47_nested.
Theorem C47_elements : forall U d cs void rs, textdoc_ok d ->
  get_folding_ranges U d None void cs = Ok rs ->
  forall a b, In a rs -> In b rs -> f_kind a = None -> f_kind b = None ->
    (f_start b <= f_start a /\ f_end a <= f_end b) \/ (f_start a <= f_start b /\ f_end b <= f_end a) \/
    f_end a < f_start b \/ f_end b < f_start a.
Proof.
  intros U d cs void rs HD H a b Ia Ib Ka Kb.
  apply In_nth_error in Ia as (i & Ia). apply In_nth_error in Ib as (j & Ib).
  destruct (Nat.lt_trichotomy i j) as [L|[->|L]].
  - pose proof (C47_nested _ _ _ _ _ HD H _ _ _ _ L Ia Ib) as Q. unfold close_line in Q.
    rewrite Ka, Kb in Q. lia.
  - rewrite Ia in Ib. injection Ib as ->. left. lia.
  - pose proof (C47_nested _ _ _ _ _ HD H _ _ _ _ L Ib Ia) as Q. unfold close_line in Q.
    rewrite Ka, Kb in Q. lia.
Qed.
Print Assumptions C47_elements.

(** C48. Every closed element with balanced content that spans three lines or more
    begins a folding range: its own, or one inside it that starts on the same line.
    Every comment over several lines that is no region mark is a range. *)
Theorem C48_elements_fold : forall U d cs void l l1 k1 mid k4 l3, textdoc_ok d ->
  fold_tokens U (d_text d) cs = Ok l -> l = l1 ++ (k1 :: mid ++ [k4]) ++ l3 ->
  element U d void (k1 :: mid ++ [k4]) ->
  line (position_at d (tk_off k1)) + 1 < line (position_at d (tk_end k4)) ->
  exists rs, get_folding_ranges U d None void cs = Ok rs /\
  exists r, In r rs /\ f_start r = line (position_at d (tk_off k1)) /\
    (r = mkF (line (position_at d (tk_off k1))) (line (position_at d (tk_end k4)) - 1) None \/
     close_line r <= line (position_at d (tk_end k4))).
Proof.
  intros U d cs void l l1 k1 mid k4 l3 HD E -> EL L.
  rewrite unlimited, (all_ranges_tokens U d cs void HD), E. cbn [bind]. eexists. split; [reflexivity|].
  eapply element_folds; eauto.
Qed.
Print Assumptions C48_elements_fold.
Theorem C48_comments_fold : forall U d cs void l k, textdoc_ok d ->
  fold_tokens U (d_text d) cs = Ok l -> In k l -> tk_type k = Comment ->
  region_start U (tk_text (d_text d) k) = false -> region_end U (tk_text (d_text d) k) = false ->
  line (position_at d (tk_off k)) < line (position_at d (tk_end k + 3)) ->
  exists rs, get_folding_ranges U d None void cs = Ok rs /\
    In (mkF (line (position_at d (tk_off k))) (line (position_at d (tk_end k + 3))) (Some KComment)) rs.
Proof.
  intros U d cs void l k HD E I T A B L.
  rewrite unlimited, (all_ranges_tokens U d cs void HD), E. cbn [bind]. eexists. split; [reflexivity|].
  eapply comment_folds; eauto.
Qed.
Print Assumptions C48_comments_fold.

(** C35. With a limit the answer, when there is one, consists of ranges of the
    unlimited answer, each as often as there at most, in order of start line. *)
Theorem C35_sublist : forall U d cs void n rs out,
  get_folding_ranges U d None void cs = Ok rs -> get_folding_ranges U d (Some n) void cs = Ok out ->
  (length rs <= n /\ out = rs) \/
  (n < length rs /\ exists l, Permutation l rs /\ 
     StronglySorted (fun a b => f_start a < f_start b \/ (f_start a = f_start b /\ f_end a <= f_end b)) l /\ sublist out l).
Proof.
  intros U d cs void n rs out H1 H2. rewrite unlimited in H1. unfold get_folding_ranges in H2.
  rewrite H1 in H2. cbn [bind] in H2. destruct (n <? length rs) eqn:L.
  - right. split; [lia|]. exists (sort_ranges rs). split; [apply sort_perm|]. split.
    { pose proof (sort_sorted rs) as SS. clear -SS. induction SS as [|a l SS IH F]; constructor; auto.
      eapply Forall_impl; [|exact F]. intros b. unfold frange_le. lia. }
    eapply limit_sublist; eauto.
  - left. split; [lia|]. congruence.
Qed.
Print Assumptions C35_sublist.
(** For well-nested ranges, fewer than 30 deep, the limit is met exactly and the outer
    ranges win: all ranges around a kept range are kept. *)
Theorem C35_limit : forall U d cs void n rs,
  get_folding_ranges U d None void cs = Ok rs -> well_nested rs ->
  (forall x, In x rs -> depth rs x < 30) ->
  exists out, get_folding_ranges U d (Some n) void cs = Ok out /\ length out = Nat.min n (length rs) /\
    (forall x, In x out -> In x rs) /\
    forall x y, In x out -> In y rs -> depth rs y < depth rs x \/ encloses y x -> In y out.
Proof.
  intros U d cs void n rs H W D. rewrite unlimited in H. unfold get_folding_ranges. rewrite H. cbn [bind].
  destruct (n <? length rs) eqn:L.
  - destruct (limit_levels rs n W D) as (out & E & LE & SU & KE); [lia|].
    exists out. split; auto. split; [lia|]. split.
    + intros x I. apply (Permutation_in _ (sort_perm rs)). clear - SU I.
      induction SU; auto; cbn in *; intuition.
    + intros x y I J [Q|Q]; eauto. apply (KE x y); auto. apply encloses_depth; auto.
      intros z Z E'. unfold encloses in *. lia.
  - exists rs. split; auto. split; [lia|]. auto.
Qed.
Print Assumptions C35_limit.
(** In particular for documents whose ranges are all element ranges that start on
    different lines. *)
Theorem C35_elements : forall U d cs void n rs, textdoc_ok d ->
  get_folding_ranges U d None void cs = Ok rs -> (forall r, In r rs -> f_kind r = None) ->
  NoDup (map f_start rs) -> (forall x, In x rs -> depth rs x < 30) ->
  exists out, get_folding_ranges U d (Some n) void cs = Ok out /\ length out = Nat.min n (length rs) /\
    (forall x, In x out -> In x rs) /\
    forall x y, In x out -> In y rs -> depth rs y < depth rs x \/ encloses y x -> In y out.
Proof.
  intros U d cs void n rs HD H KD ND D. apply C35_limit; auto. split; auto.
  assert (PR : forall a, In a rs -> f_start a < f_end a).
  { intros a I. pose proof (C34_ranges U d cs void HD) as Q. rewrite H in Q.
    destruct (fold_tokens U (d_text d) cs); [|discriminate|tauto].
    destruct Q as (rs' & E & Q). inv E. apply Q; auto. }
  split; [intros a I; apply PR in I; lia|].
  intros a b Ia Ib L. pose proof (C47_elements _ _ _ _ _ HD H a b Ia Ib (KD _ Ia) (KD _ Ib)).
  pose proof (PR _ Ia). pose proof (PR _ Ib). lia.
Qed.
Print Assumptions C35_elements.

(** ** Examples *)
Definition fold_doc : textdoc := utf16_doc (bs "<!--
 x --><div>
<p>é

</p>
<ul>
<li>1
2
</li>
<br>
</ul>

</div>
<!-- #region a -->

<b>
c

</b>
<!-- #endregion -->").
Definition fold_doc_ranges : list frange :=
  match get_folding_ranges demo_unicode fold_doc None html5_void false with Ok r => r | _ => [] end.
Definition show (r : frange) : nat * nat * option fold_kind := (f_start r, f_end r, f_kind r).
Example fold_doc_ok : textdoc_ok fold_doc.
Proof. apply C27_contract. exists (decode (d_text fold_doc)). vm_compute. auto. Qed.
Example C34_demo : map show fold_doc_ranges =
  [(0, 1, Some KComment); (2, 3, None); (6, 7, None); (5, 9, None); (1, 11, None); (15, 17, None);
   (13, 19, Some KRegion)].
Proof. vm_compute. reflexivity. Qed.
Example C35_demo : map show (match get_folding_ranges demo_unicode (utf16_doc (bs "<div>
<p>

</p>
<ul>
<li>1

</li>

</ul>
</div>")) (Some 3) html5_void false with Ok r => r | _ => [] end) =
  [(0, 9, None); (1, 2, None); (4, 8, None)].
Proof. vm_compute. reflexivity. Qed.
Definition fold_run (s : string) (n : option nat) : res (list frange) :=
  get_folding_ranges demo_unicode (utf16_doc (bs s)) n html5_void false.
(** C35 and C48 apply to this document. *)
Definition nest_doc : string := "<div>
<p>

</p>
<ul>
<li>1

</li>

</ul>
</div>".
Example C35_demo_applies : exists rs, fold_run nest_doc None = Ok rs /\ length rs = 4 /\
  well_nested rs /\ (forall x, In x rs -> depth rs x < 30).
Proof.
  eexists. split; [vm_compute; reflexivity|]. split; [reflexivity|]. split; [split; [|split]|].
  - vm_compute. repeat constructor; cbn; intuition discriminate.
  - intros a [<-|[<-|[<-|[<-|[]]]]]; cbn; lia.
  - intros a b [<-|[<-|[<-|[<-|[]]]]] [<-|[<-|[<-|[<-|[]]]]]; cbn; lia.
  - intros x [<-|[<-|[<-|[<-|[]]]]]; vm_compute; lia.
Qed.
Definition li_doc : string := "<ul id=1>
<li>1
</li><br>
</ul>".
Definition li_tokens : list token :=
  match fold_tokens demo_unicode (bs li_doc) false with Ok l => l | _ => [] end.
Definition nt (i : nat) : token := nth i li_tokens (mkToken EOS 0 0 None WithinContent).
Definition sl (a b : nat) : list token := firstn (b - a) (skipn a li_tokens).
Lemma neutral_all q : forallb (fun k => match tk_type k with
    StartTag | EndTag | Comment | StartTagClose | EndTagClose | StartTagSelfClose => false | _ => true end) q = true ->
  Forall neutral q.
Proof.
  intros H. rewrite forallb_forall in H. apply Forall_forall. intros k I. specialize (H k I).
  unfold neutral, is_closer. destruct (tk_type k); try discriminate H; repeat split; intuition discriminate.
Qed.
Lemma bal_others U d void q r : Forall neutral q -> balanced U d void r -> balanced U d void (q ++ r).
Proof. induction 1; intros B; cbn; auto. apply bal_other; auto. Qed.
Example C48_demo :
  fold_tokens demo_unicode (bs li_doc) false = Ok li_tokens /\
  li_tokens = sl 0 1 ++ (nt 1 :: sl 2 21 ++ [nt 21]) ++ [] /\
  element demo_unicode (utf16_doc (bs li_doc)) html5_void (nt 1 :: sl 2 21 ++ [nt 21]) /\
  (tk_off (nt 1), tk_end (nt 21)) = (1, 31).
Proof.
  Local Ltac vm := vm_compute; reflexivity.
  Local Ltac nall := apply neutral_all; vm.
  split; [vm|]. split; [vm|]. split; [|vm].
  replace (nt 1 :: sl 2 21 ++ [nt 21]) with
    (nt 1 :: sl 2 6 ++ nt 6 ::
     (sl 7 9 ++ ((nt 9 :: [] ++ nt 10 :: sl 11 13 ++ nt 13 :: [] ++ [nt 14]) ++
        sl 15 16 ++ nt 16 :: [] ++ nt 17 :: sl 18 20))
     ++ nt 20 :: [] ++ [nt 21]) by vm.
  apply element_i; [vm|nall|vm|vm| |vm|vm|nall|vm].
  apply bal_others; [nall|].
  apply bal_element.
  - apply element_i; [vm|nall|vm|vm| |vm|vm|nall|vm].
    rewrite <- (app_nil_r (sl 11 13)).
    apply bal_others; [nall|apply bal_nil].
  - apply bal_others; [nall|].
    apply bal_void; [vm|nall|left; split; vm|].
    rewrite <- (app_nil_r (sl 18 20)).
    apply bal_others; [nall|apply bal_nil].
Qed.

(** ** Where the limit fails *)
(** The limit makes folding panic when a comment ends on the line where an element starts. *)
Theorem C35_limit_panics_refuted : exists s rs, fold_run s None = Ok rs /\ length rs = 2 /\ fold_run s (Some 1) = Panic PIndex.
Proof.
  exists "<!--


--><div>


</div>"%string. eexists. vm_compute. auto.
Qed.
Print Assumptions C35_limit_panics_refuted.
(** More ranges than the limit allows. *)
Theorem C35_limit_exceeded_refuted : exists s out, fold_run s (Some 3) = Ok out /\ length out = 4.
Proof.
  exists "<!--


--><div>
<p>
<b>

</b>
<b>

</b>

</p>
</div>"%string. eexists. vm_compute. auto.
Qed.
Print Assumptions C35_limit_exceeded_refuted.
(** Three ranges, limit two, none kept: two of them start on one line (so the test
    against the previous start line does not prevent that). *)
Theorem C35_limit_empty_refuted : exists s rs, fold_run s None = Ok rs /\ map f_start rs = [0; 3; 0] /\ fold_run s (Some 2) = Ok [].
Proof.
  exists "<div><p>

</p>
<p>

</p>
</div>"%string. eexists. vm_compute. auto.
Qed.
Print Assumptions C35_limit_empty_refuted.
(** A region and an element may cross. *)
Theorem C47_region_refuted : exists s rs a b, fold_run s None = Ok rs /\ In a rs /\ In b rs /\ f_start b < f_start a /\ f_start a <= f_end b /\ f_end b < f_end a.
Proof.
  exists "<div>
<!-- #region -->

<!-- #endregion --></div>"%string. eexists. exists (mkF 1 3 (Some KRegion)), (mkF 0 2 None).
  split; [vm_compute; reflexivity|]. cbn. auto 10 using Nat.lt_0_succ.
Qed.
Print Assumptions C47_region_refuted.
(** An end tag in other letters closes the element for the parser but not for folding. *)
Theorem C48_case_refuted : exists s n, fold_run s None = Ok [] /\ parse demo_unicode (bs s) false html5_void = Ok [n] /\ n_closed n = true.
Proof.
  exists "<DIV>

</div>"%string. eexists. vm_compute. auto.
Qed.
Print Assumptions C48_case_refuted.
