(** * C39: resolving references *)
From Verif Require Import Base Stream Scanner BaseFacts Tree DataManager Uri.
From Coq Require Import ZifyBool ZifyNat ZifyN.

(** ** The RFC 3986 instance meets the contract *)
Lemma break_app f s : forall a b, break f s = (a, b) -> s = a ++ b /\ Forall (fun c => f c = false) a /\
  match b with c :: _ => f c = true | [] => True end.
Proof.
  induction s as [|c s IH]; intros a b H; cbn [break] in H; [inv H; auto|].
  destruct (f c) eqn:F; [inv H; auto|].
  destruct (break f s) as [x y]. destruct (IH _ _ eq_refl) as (E1 & E2 & E3). inv H.
  cbn [app]. subst. auto.
Qed.
Lemma forall_not_in (f : N -> bool) c s : Forall (fun c => f c = false) s -> f c = true -> ~ In c s.
Proof. intros F H I. rewrite Forall_forall in F. apply F in I. congruence. Qed.

Lemma split_scheme_spec s o r : split_scheme s = (o, r) ->
  s = opt_post o (bs ":") ++ r /\ forall x, o = Some x -> scheme_ok x = true /\ ~ In 58%N x.
Proof.
  unfold split_scheme. destruct (break _ s) as [a [|c b]] eqn:B; intros H.
  - inv H. split; auto. discriminate.
  - apply break_app in B as (-> & F & C).
    destruct ((c =? 58)%N && scheme_ok a) eqn:E; inv H; [|split; auto; discriminate].
    apply andb_prop in E as [E1 E2]. apply N.eqb_eq in E1. subst c. split.
    + cbn [opt_post]. rewrite <- app_assoc. reflexivity.
    + intros x X. inv X. split; auto. eapply forall_not_in; [exact F|reflexivity].
Qed.
Lemma split_auth_spec s o r : split_auth s = (o, r) ->
  s = opt_pre (bs "//") o ++ r /\
  (forall a, o = Some a -> ~ In 47%N a /\ ~ In 63%N a /\ ~ In 35%N a /\
             match r with c :: _ => c = 47%N \/ c = 63%N \/ c = 35%N | [] => True end) /\
  (o = None -> is_prefix (bs "//") s = false).
Proof.
  unfold split_auth. destruct s as [|c1 [|c2 s]]; intros H; try (inv H; split; [|split]; auto; discriminate).
  - inv H. split; [|split]; auto; [discriminate|]. intros _. change (is_prefix (bs "//") [c1]) with ((47 =? c1)%N && false). lia.
  - destruct ((c1 =? 47)%N && (c2 =? 47)%N) eqn:E.
    + apply andb_prop in E as [E1 E2]. apply N.eqb_eq in E1, E2. subst.
      destruct (break _ s) as [a b] eqn:B. apply break_app in B as (-> & F & C). inv H.
      split; [reflexivity|]. split; [|discriminate]. intros a' A. inv A.
      repeat split; try (eapply forall_not_in; [exact F|reflexivity]).
      destruct r; auto. cbn [existsb] in C. lia.
    + inv H. split; auto. split; [discriminate|]. intros _. change (is_prefix (bs "//") (c1 :: c2 :: s)) with ((47 =? c1)%N && ((47 =? c2)%N && true)). lia.
Qed.
Lemma split_after_spec c f s o r : split_after c f s = (o, r) ->
  s = opt_pre [c] o ++ r /\ (forall x, o = Some x -> Forall (fun c => f c = false) x /\
     match r with c :: _ => f c = true | [] => True end) /\
  (o = None -> match s with c' :: _ => c' <> c | [] => True end).
Proof.
  unfold split_after. destruct s as [|c' s]; intros H; [inv H; split; [|split]; auto; discriminate|].
  destruct (c' =? c)%N eqn:E.
  - apply N.eqb_eq in E. subst. destruct (break f s) as [a b] eqn:B. apply break_app in B as (-> & F & C). inv H.
    split; [reflexivity|]. split; [|discriminate]. intros x X. inv X. auto.
  - inv H. split; auto. split; [discriminate|]. intros _. lia.
Qed.

Lemma scheme_chars x : scheme_ok x = true -> ~ In 47%N x /\ ~ In 63%N x /\ ~ In 35%N x /\ x <> [].
Proof.
  intros H. assert (F : Forall (fun c => is_scheme_char c = true) x /\ x <> []).
  { destruct x as [|c x]; [discriminate|]. cbn [scheme_ok] in H. apply andb_prop in H as [H1 H2]. split; [|discriminate].
    constructor; [|apply Forall_forall; apply forallb_forall; auto].
    unfold is_scheme_char, ascii_alnum. rewrite H1. reflexivity. }
  destruct F as [F F0]. rewrite Forall_forall in F.
  repeat split; auto; intros I; apply F in I; vm_compute in I; discriminate.
Qed.

Lemma is_prefix_app p s : forall q, is_prefix p s = true -> is_prefix p (s ++ q) = true.
Proof.
  revert s. induction p as [|c p IH]; intros s q H; auto. destruct s as [|c' s]; [discriminate|].
  cbn [is_prefix app] in *. apply andb_prop in H as [H1 H2]. rewrite H1, IH; auto.
Qed.
Lemma no_colon_first a : forall b, existsb (N.eqb 58) (fst (break (N.eqb 47) (a ++ 58%N :: b))) = false -> In 47%N a.
Proof.
  induction a as [|c a IH]; intros b H.
  - cbn [app break] in H. change (47 =? 58)%N with false in H. cbv iota in H.
    destruct (break _ b). discriminate.
  - cbn [app break] in H. destruct (47 =? c)%N eqn:E; [left; lia|right].
    specialize (IH b). destruct (break (N.eqb 47) (a ++ 58%N :: b)) as [x y]. cbn [fst existsb] in *.
    apply IH. destruct (58 =? c)%N; [discriminate|auto].
Qed.

Lemma rfc_some s u : rfc_uri s = Some u -> exists s5, rfc_split s = (u, s5) /\ rfc_valid u = true.
Proof.
  unfold rfc_uri. destruct (rfc_split s) as [u' s5]. destruct (rfc_valid u') eqn:V; [|discriminate].
  intros H. inv H. eauto.
Qed.
Lemma rfc_parts s u : rfc_uri s = Some u -> recompose u = s /\
    (forall x, u_scheme u = Some x -> scheme_ok x = true /\ ~ In 58%N x) /\
    (forall a, u_auth u = Some a -> (~ In 47%N a /\ ~ In 63%N a /\ ~ In 35%N a) /\
        (u_path u = [] \/ exists p, u_path u = 47%N :: p)) /\
    (u_auth u = None -> is_prefix (bs "//") (u_path u) = false) /\
    ~ In 63%N (u_path u) /\ ~ In 35%N (u_path u) /\
    (forall q, u_query u = Some q -> ~ In 35%N q).
Proof.
  intros H. apply rfc_some in H as (s5 & H & _). unfold rfc_split in H.
  destruct (split_scheme s) as [sch s1] eqn:E1. destruct (split_auth s1) as [au s2] eqn:E2.
  destruct (break _ s2) as [p s3] eqn:E3. destruct (split_after 63 _ s3) as [q s4] eqn:E4.
  destruct (split_after 35 _ s4) as [f s6] eqn:E5. inv H.
  apply split_scheme_spec in E1 as (-> & C1). apply split_auth_spec in E2 as (-> & C2 & C2').
  apply break_app in E3 as (-> & C3 & C3'). apply split_after_spec in E4 as (-> & C4 & C4').
  apply split_after_spec in E5 as (-> & C5 & C5'). cbn [u_scheme u_auth u_path u_query u_frag recompose].
  assert (S5 : s5 = []).
  { destruct f as [f|].
    - destruct (C5 _ eq_refl) as (_ & X). destruct s5; auto. discriminate.
    - cbn [opt_pre app] in *. destruct s5 as [|c s5]; auto. exfalso. specialize (C5' eq_refl). cbn in C5'.
      destruct q as [q|].
      + destruct (C4 _ eq_refl) as (_ & X). lia.
      + cbn [opt_pre app] in *. specialize (C4' eq_refl). cbn in C4'. lia. }
  subst s5. rewrite app_nil_r. split; [reflexivity|]. split; [auto|]. split; [|split].
  { intros a ->. destruct (C2 _ eq_refl) as (A1 & A2 & A3 & A4). split; auto.
    destruct p as [|c p]; auto. right. cbn [app] in A4. inversion C3; subst.
    destruct A4 as [-> |[-> | ->]]; [eauto| discriminate|discriminate]. }
  { intros ->. specialize (C2' eq_refl). cbn [opt_pre app] in C2'.
    destruct (is_prefix (bs "//") p) eqn:P; auto. eapply is_prefix_app in P. rewrite P in C2'. discriminate. }
  repeat split; try (eapply forall_not_in; [exact C3|reflexivity]).
  intros q' ->. destruct (C4 _ eq_refl) as (X & _). eapply forall_not_in; [exact X|reflexivity].
Qed.
Theorem C39_rfc_contract : uri_ok rfc_uri.
Proof.
  split; unfold has; intros s u; intros; destruct (rfc_parts s u) as (A1 & A2 & A3 & A3' & A4 & A5 & A6); eauto.
  - apply A3; auto.
  - eapply A3; eauto.
  - destruct (A2 x) as [B1 B2]; auto. apply scheme_chars in B1. intuition.
  - apply rfc_some in H as (s5 & _ & V). unfold rfc_valid in V. rewrite H0, H1 in V.
    apply andb_prop in V as [_ V]. rewrite H2 in V. eapply no_colon_first.
    destruct (existsb _ _) eqn:E; [discriminate|]. exact E.
Qed.
Print Assumptions C39_rfc_contract.

(** ** Statement *)
(** Walking down a path from a directory ([st]: its names, last first): a name
    enters, [..] leaves, and may not leave the root. *)
Inductive walks : list str -> list component -> list str -> Prop :=
| w_end st : walks st [] (rev st)
| w_name st v r out : walks (v :: st) r out -> walks st (Normal v :: r) out
| w_up st v r out : walks st r out -> walks (v :: st) (ParentDir :: r) out
| w_here st r out : walks st r out -> walks st (CurDir :: r) out.
(** The directory of a URI [base] with the path [p]: a path that does not end in
    a slash loses its last name. *)
Definition directory (base p : str) : list component :=
  if ends_with base SLASH then path_components p else pop_component (path_components p).
(** The names of the path a reference path [p] denotes, in the directory [dir]. *)
Inductive denotes (dir : list component) (p : str) : list str -> Prop :=
| den_relative D names : has_root p = false -> dir = RootDir :: D ->
    walks [] (D ++ path_components p) names -> denotes dir p names
| den_no_base v r names : has_root p = false -> dir = [] -> path_components p = Normal v :: r ->
    walks [] (Normal v :: r) names -> denotes dir p names
| den_rooted r names : path_components p = RootDir :: r ->
    (* a drive, "C:", stays unless the reference names one *)
    walks (match dir, r with
           | RootDir :: Normal v :: _, Normal w :: _ => if has_colon v && negb (has_colon w) then [v] else []
           | RootDir :: Normal v :: _, _ => if has_colon v then [v] else []
           | _, _ => []
           end) r names -> denotes dir p names.

(** ** Paths *)
Definition clean (v : str) : Prop := v <> [] /\ ~ In SLASH v.
Definition clean_comp (c : component) : Prop := match c with Normal v => clean v | _ => True end.
Lemma split_on_clean c s : Forall (fun p => ~ In c p) (split_on c s).
Proof.
  induction s as [|x s IH]; cbn [split_on]; [constructor; auto|].
  destruct (split_on c s) as [|p ps]; [constructor; auto|]. inversion IH; subst.
  destruct (x =? c)%N eqn:E; constructor; auto. intros [I|I]; auto. lia.
Qed.
Lemma part_clean p : ~ In SLASH p -> Forall clean_comp (part_component p).
Proof.
  intros H. unfold part_component. destruct p as [|x p]; auto.
  destruct (beq _ _); auto. destruct (beq _ _); constructor; cbn; auto. split; auto. discriminate.
Qed.
Lemma path_clean s : Forall clean_comp (path_components s).
Proof.
  assert (F : forall ps, Forall (fun p => ~ In SLASH p) ps -> Forall clean_comp (flat_map part_component ps)).
  { induction 1; cbn [flat_map]; auto. apply Forall_app; split; auto using part_clean. }
  unfold path_components. pose proof (split_on_clean SLASH s) as H.
  destruct (has_root s); [constructor; cbn; auto|].
  destruct (split_on SLASH s) as [|p r]; auto. inversion H; subst.
  apply Forall_app; split; auto. destruct (beq _ _); auto using part_clean. repeat constructor.
Qed.
Lemma pop_clean l : Forall clean_comp l -> Forall clean_comp (pop_component l).
Proof.
  induction l as [|c r IH]; intros H; auto. inversion H; subst. cbn [pop_component]. destruct c; destruct r; auto.
Qed.
Lemma directory_clean base p : Forall clean_comp (directory base p).
Proof. unfold directory. destruct (ends_with _ _); auto using pop_clean, path_clean. Qed.

Lemma walks_clean st l out : walks st l out -> Forall clean st -> Forall clean_comp l -> Forall clean out.
Proof.
  induction 1; intros A B; auto.
  - apply Forall_rev; auto.
  - inversion B; subst. auto.
  - inversion B; subst. inversion A; subst. auto.
  - inversion B; subst. auto.
Qed.
Lemma walks_filter f st l out : (forall c, f c = true \/ c = CurDir) -> walks st l out -> walks st (filter f l) out.
Proof.
  intros F. induction 1; cbn [filter].
  - constructor.
  - destruct (F (Normal v)) as [-> |]; [|discriminate]. constructor; auto.
  - destruct (F ParentDir) as [-> |]; [|discriminate]. constructor; auto.
  - destruct (f CurDir); auto. constructor; auto.
Qed.
Lemma walks_app_filter D f l : (forall c, f c = true \/ c = CurDir) -> forall st out,
  walks st (D ++ l) out -> walks st (D ++ filter f l) out.
Proof.
  intros F. induction D as [|c D IH]; intros st out H; [apply walks_filter; auto|].
  cbn [app] in *. inversion H; subst; constructor; auto.
Qed.
Lemma walk_walks st l out : walks st l out ->
  rev (walk (map Normal st ++ [RootDir]) l) = RootDir :: map Normal out.
Proof.
  induction 1; cbn [walk]; auto.
  rewrite rev_app_distr, <- map_rev. reflexivity.
Qed.

Lemma rev_last_clean v acc : clean v -> exists x r, rev (acc ++ v) = x :: r /\ x <> SLASH.
Proof.
  intros [V1 V2]. destruct (rev v) as [|x r] eqn:E.
  - apply (f_equal (@rev N)) in E. rewrite rev_involutive in E. contradiction.
  - rewrite rev_app_distr, E. cbn [app]. exists x, (r ++ rev acc). split; auto.
    intros ->. apply V2. apply in_rev. rewrite E. left; auto.
Qed.
Lemma collect_names names : Forall clean names -> forall acc,
  (exists x r, rev acc = x :: r /\ x <> SLASH) ->
  fold_left push_component (map Normal names) acc = acc ++ flat_map (fun v => SLASH :: v) names.
Proof.
  induction 1 as [|v names C F IH]; intros acc (x & r & E & N); cbn [map fold_left flat_map].
  - rewrite app_nil_r. auto.
  - unfold push_component at 2. rewrite E. destruct (x =? SLASH)%N eqn:X; [lia|].
    rewrite IH.
    + rewrite <- app_assoc. reflexivity.
    + destruct (rev_last_clean v (acc ++ [SLASH]) C) as (x' & r' & E' & N'). rewrite <- app_assoc in E'. eauto.
Qed.
Lemma join_flat v names : join [SLASH] (v :: names) = v ++ flat_map (fun v => SLASH :: v) names.
Proof.
  revert v. induction names as [|w names IH]; intros v.
  - cbn. rewrite app_nil_r. auto.
  - change (join [SLASH] (v :: w :: names)) with (v ++ [SLASH] ++ join [SLASH] (w :: names)).
    rewrite IH. reflexivity.
Qed.
Lemma collect_root names : Forall clean names ->
  collect_path (RootDir :: map Normal names) = SLASH :: join [SLASH] names.
Proof.
  unfold collect_path. intros F. cbn [fold_left]. change (push_component [] RootDir) with [SLASH].
  destruct F as [|v names C F]; [reflexivity|]. cbn [map fold_left].
  unfold push_component at 2. change (rev [SLASH]) with [SLASH]. change (SLASH =? SLASH)%N with true. cbv iota.
  rewrite collect_names; auto.
  - rewrite join_flat. reflexivity.
  - apply (rev_last_clean v [SLASH] C).
Qed.

(** *** new_path computes what the reference denotes *)
Definition not_cur (c : component) : bool := match c with CurDir => false | _ => true end.
Lemma path_no_root p : has_root p = false -> ~ In RootDir (path_components p).
Proof.
  intros H. unfold path_components. rewrite H.
  assert (F : forall ps, ~ In RootDir (flat_map part_component ps)).
  { intros ps I. apply in_flat_map in I as (q & _ & I). unfold part_component in I.
    destruct q; [contradiction|]. destruct (beq _ _); [contradiction|]. destruct (beq _ _); destruct I as [I|[]]; discriminate. }
  destruct (split_on SLASH p) as [|q r]; [auto|]. intros I. apply in_app_or in I as [I|I]; [|eapply F; eauto].
  destruct (beq _ _); [destruct I as [I|[]]; discriminate|]. apply (F [q]). cbn [flat_map]. rewrite app_nil_r. auto.
Qed.
Lemma new_path_denotes dir p names : denotes dir p names ->
  new_path dir (join_components dir p) = RootDir :: map Normal names.
Proof.
  assert (NC : forall c, not_cur c = true \/ c = CurDir) by (intros []; auto).
  destruct 1 as [D names R -> W|v r names R -> P W|r names P W].
  - unfold join_components. rewrite R. cbn [app]. fold not_cur.
    apply (walks_app_filter _ not_cur _ NC) in W. fold not_cur.
    change (fun c : component => match c with CurDir => false | _ => true end) with not_cur.
    set (rest := D ++ filter not_cur (path_components p)) in *. cbn [new_path].
    assert (B : (if match rest with Normal v :: _ => negb (has_colon v) | _ => true end
                 then prefix_root (base_prefix (RootDir :: D)) else [RootDir]) = [RootDir]).
    { cbn [base_prefix]. destruct D as [|[| | |v] D]; cbn [app] in rest;
        try (destruct (match rest with Normal v :: _ => negb (has_colon v) | _ => true end); reflexivity).
      unfold rest. cbn [app]. destruct (has_colon v); reflexivity. }
    rewrite B. apply walk_walks in W. exact W.
  - unfold join_components. rewrite R, P. cbn [new_path base_prefix prefix_root app].
    apply walk_walks in W. cbn [walk] in W. cbn [rev app]. exact W.
  - unfold join_components. destruct (has_root p) eqn:R.
    2:{ exfalso. apply (path_no_root _ R). rewrite P. left; auto. }
    rewrite P. cbn [new_path]. apply walk_walks in W. rewrite <- W. do 2 f_equal.
    destruct dir as [|[| | |?] [|[| | |v] dir]]; cbn [base_prefix prefix_root];
      try (destruct (match r with Normal v :: _ => negb (has_colon v) | _ => true end); reflexivity).
    destruct r as [|[| | |w] r]; destruct (has_colon v); try reflexivity; destruct (has_colon w); reflexivity.
Qed.
Lemma denotes_clean base p q names : denotes (directory base p) q names -> Forall clean names.
Proof.
  assert (A : forall D, directory base p = D -> Forall clean_comp D).
  { intros D <-. apply directory_clean. }
  destruct 1 as [D names R E W|v r names R E P W|r names P W].
  - eapply walks_clean; eauto. apply A in E; auto. inversion E; subst. apply Forall_app; split; auto using path_clean.
  - eapply walks_clean; eauto. rewrite <- P. apply path_clean.
  - eapply walks_clean; eauto.
    + pose proof (directory_clean base p) as F. destruct (directory base p) as [|[| | |?] [|[| | |v] dir]]; auto.
      inversion F; subst. inversion H2; subst. cbn in H3.
      destruct r as [|[| | |w] r]; destruct (has_colon v); cbn [andb]; try (constructor; auto);
        destruct (has_colon w); cbn [negb]; auto.
    + pose proof (path_clean q) as F. rewrite P in F. inversion F; auto.
Qed.

(** ** Parts of a URI are determined by its text *)
Lemma split_unique (stop : N -> bool) a : forall a' b b', a ++ b = a' ++ b' ->
  (forall c, In c a -> stop c = false) -> (forall c, In c a' -> stop c = false) ->
  match b with c :: _ => stop c = true | [] => True end ->
  match b' with c :: _ => stop c = true | [] => True end -> a = a' /\ b = b'.
Proof.
  induction a as [|c a IH]; intros [|c' a'] b b' E A A' B B'; cbn [app] in E; auto.
  - subst b. rewrite A' in B by (left; auto). discriminate.
  - subst b'. rewrite A in B' by (left; auto). discriminate.
  - inv E. destruct (IH a' b b' H1) as [-> ->]; auto; intros x I; [apply A|apply A']; right; auto.
Qed.
Lemma parts_unique L s u sch a p : uri_ok L -> L s = Some u ->
  s = sch ++ bs "://" ++ a ++ p ->
  ~ In 58%N sch -> ~ In 47%N sch -> ~ In 63%N sch -> ~ In 35%N sch -> sch <> [] ->
  ~ In 47%N a -> ~ In 63%N a -> ~ In 35%N a ->
  ~ In 63%N p -> ~ In 35%N p -> (p = [] \/ exists q, p = 47%N :: q) ->
  u = mkUri (Some sch) (Some a) p None None.
Proof.
  intros OK Lu E S1 S2 S3 S4 S5 A1 A2 A3 P1 P2 P3.
  pose proof (uo_parts L OK _ _ Lu) as R. unfold recompose in R.
  assert (N63 : ~ In 63%N s).
  { subst s. intros I. apply in_app_or in I as [I|I]; auto. apply in_app_or in I as [I|I];
      [vm_compute in I; intuition discriminate|]. apply in_app_or in I as [I|I]; auto. }
  assert (N35 : ~ In 35%N s).
  { subst s. intros I. apply in_app_or in I as [I|I]; auto. apply in_app_or in I as [I|I];
      [vm_compute in I; intuition discriminate|]. apply in_app_or in I as [I|I]; auto. }
  destruct (u_frag u) as [f|] eqn:F.
  { exfalso. apply N35. rewrite <- R. rewrite !in_app_iff. right. right. right. right. left. auto. }
  destruct (u_query u) as [q|] eqn:Q.
  { exfalso. apply N63. rewrite <- R. rewrite !in_app_iff. right. right. right. left. left. auto. }
  cbn [opt_pre] in R. rewrite !app_nil_r in R.
  assert (SC : u_scheme u = Some sch /\ opt_pre (bs "//") (u_auth u) ++ u_path u = bs "//" ++ a ++ p).
  { destruct (u_scheme u) as [x|] eqn:X; cbn [opt_post] in R.
    - destruct (uo_scheme L OK _ _ _ Lu X) as (X1 & X2 & X3 & X4 & X5).
      rewrite <- R in E. rewrite <- app_assoc in E.
      apply (split_unique (fun c => (c =? 58)%N)) in E; auto.
      + destruct E as [-> E]. split; auto. cbn [bs app] in E. inv E. auto.
      + intros c I. destruct (c =? 58)%N eqn:C; auto. apply N.eqb_eq in C. subst. contradiction.
      + intros c I. destruct (c =? 58)%N eqn:C; auto. apply N.eqb_eq in C. subst. contradiction.
      + cbn. auto.
      + cbn. auto.
    - exfalso. cbn [app] in R. destruct (u_auth u) as [au|] eqn:AU.
      + rewrite <- R in E. destruct sch as [|c sch]; [contradiction|]. cbn in E. inv E. apply S2. left; auto.
      + cbn [opt_pre app] in R. apply S2. apply (uo_noscheme L OK _ _ sch (bs "//" ++ a ++ p) Lu X AU).
        rewrite R, E. reflexivity. }
  destruct SC as [SC1 SC2]. destruct (u_auth u) as [au|] eqn:AU.
  - cbn [opt_pre] in SC2. rewrite <- app_assoc in SC2. apply app_inv_head in SC2.
    destruct (uo_auth L OK _ _ _ Lu AU) as (U1 & U2 & U3).
    pose proof (uo_abs L OK _ _ _ Lu AU) as U4.
    apply (split_unique (fun c => (c =? 47)%N)) in SC2.
    + destruct SC2 as [SC2 SC3]. transitivity (mkUri (u_scheme u) (u_auth u) (u_path u) (u_query u) (u_frag u)); [destruct u; reflexivity|].
      rewrite SC1, AU, F, Q, SC2, SC3. reflexivity.
    + intros c I. destruct (c =? 47)%N eqn:C; auto. apply N.eqb_eq in C. subst. contradiction.
    + intros c I. destruct (c =? 47)%N eqn:C; auto. apply N.eqb_eq in C. subst. contradiction.
    + destruct U4 as [-> |(x & ->)]; auto.
    + destruct P3 as [-> |(x & ->)]; auto.
  - exfalso. pose proof (uo_noauth L OK _ _ Lu AU) as NA. cbn [opt_pre app] in SC2. rewrite SC2 in NA. discriminate.
Qed.

(** ** C39 *)
(** A reference without a scheme, in a base with the scheme [sch], whose path
    stays below the root: the result has the scheme of the base, the authority of
    the reference or else of the base, and the path the reference denotes. *)
Definition authority_of (u b : uri_parts) : str :=
  match u_auth u with Some a => a | None => match u_auth b with Some a => a | None => [] end end.
(** The path is a directory (ends in a slash) if the reference ends in a slash or dot. *)
Definition dir_suffix (reference : str) : str :=
  if ends_with reference SLASH || ends_with reference 46 then [SLASH] else [].
Theorem C39_resolve : forall L reference base u b sch names,
  L reference = Some u -> u_scheme u = None -> L base = Some b -> u_scheme b = Some sch ->
  denotes (directory base (u_path b)) (u_path u) names ->
  resolve_reference L reference base =
    Ok (Some (sch ++ bs "://" ++ authority_of u b ++ [SLASH] ++ join [SLASH] names ++ dir_suffix reference)).
Proof.
  intros L reference base u b sch names H1 H2 H3 H4 D.
  unfold resolve_reference. rewrite H1, H3, H2, H4.
  change (if ends_with base SLASH then path_components (u_path b)
          else pop_component (path_components (u_path b))) with (directory base (u_path b)).
  rewrite (new_path_denotes _ _ _ D), collect_root by (eapply denotes_clean; eauto).
  reflexivity.
Qed.
Print Assumptions C39_resolve.

(** Read as a URI, the result has exactly that scheme, authority and path. *)
Lemma walks_bytes (c : N) st l out : walks st l out -> Forall (fun v => ~ In c v) st ->
  Forall (fun x => match x with Normal v => ~ In c v | _ => True end) l -> Forall (fun v => ~ In c v) out.
Proof.
  induction 1; intros A B; auto.
  - apply Forall_rev; auto.
  - inversion B; subst. auto.
  - inversion B; subst. inversion A; subst. auto.
  - inversion B; subst. auto.
Qed.
Definition comp_bytes (c : N) (x : component) : Prop := match x with Normal v => ~ In c v | _ => True end.
Lemma split_on_bytes c x s : ~ In x s -> Forall (fun p => ~ In x p) (split_on c s).
Proof.
  induction s as [|y s IH]; cbn [split_on]; intros H; [constructor; auto|].
  assert (IH' : Forall (fun p => ~ In x p) (split_on c s)) by (apply IH; intros I; apply H; right; auto).
  destruct (split_on c s) as [|p ps]; [constructor; auto|]. inversion IH'; subst.
  destruct (y =? c)%N; constructor; auto. intros [I|I]; auto. apply H. left; auto.
Qed.
Lemma path_bytes x s : ~ In x s -> Forall (comp_bytes x) (path_components s).
Proof.
  intros H.
  assert (P : forall p, ~ In x p -> Forall (comp_bytes x) (part_component p)).
  { intros p N. unfold part_component. destruct p; auto. destruct (beq _ _); auto.
    destruct (beq _ _); constructor; cbn; auto. }
  assert (F : forall ps, Forall (fun p => ~ In x p) ps -> Forall (comp_bytes x) (flat_map part_component ps)).
  { induction 1; cbn [flat_map]; auto. apply Forall_app; split; auto. }
  unfold path_components. pose proof (split_on_bytes SLASH x s H) as G.
  destruct (has_root s); [constructor; cbn; auto|].
  destruct (split_on SLASH s) as [|p r]; auto. inversion G; subst.
  apply Forall_app; split; auto. destruct (beq _ _); auto. repeat constructor.
Qed.
Lemma pop_forall P l : Forall P l -> Forall P (pop_component l).
Proof.
  induction l as [|c r IH]; intros H; auto. inversion H; subst. cbn [pop_component].
  destruct c; destruct r; auto.
Qed.
Lemma directory_bytes x base p : ~ In x p -> Forall (comp_bytes x) (directory base p).
Proof. intros H. unfold directory. destruct (ends_with _ _); auto using pop_forall, path_bytes. Qed.
Lemma denotes_bytes x base p q names : ~ In x p -> ~ In x q ->
  denotes (directory base p) q names -> Forall (fun v => ~ In x v) names.
Proof.
  intros Hp Hq. pose proof (directory_bytes x base p Hp) as A. pose proof (path_bytes x q Hq) as B.
  destruct 1 as [D names R E W|v r names R E P W|r names P W].
  - eapply walks_bytes; eauto. rewrite E in A. inversion A; subst. apply Forall_app; split; auto.
  - eapply walks_bytes; eauto. rewrite <- P. auto.
  - eapply walks_bytes; eauto.
    + destruct (directory base p) as [|[| | |?] [|[| | |v] dir]]; auto.
      inversion A; subst. inversion H2; subst. cbn in H3.
      destruct r as [|[| | |w] r]; destruct (has_colon v); cbn [andb]; try (constructor; auto);
        destruct (has_colon w); cbn [negb]; auto.
    + rewrite P in B. inversion B; auto.
Qed.
Lemma join_bytes x names : x <> SLASH -> Forall (fun v => ~ In x v) names -> ~ In x (join [SLASH] names).
Proof.
  intros N F. destruct F as [|v names H F]; [cbn; auto|]. rewrite join_flat. intros I.
  apply in_app_or in I as [I|I]; auto. apply in_flat_map in I as (w & W & [I|I]); [auto|].
  rewrite Forall_forall in F. apply (F w); auto.
Qed.
Theorem C39_keeps_scheme_and_authority : forall L reference base u b sch names,
  uri_ok L ->
  L reference = Some u -> u_scheme u = None -> L base = Some b -> u_scheme b = Some sch ->
  denotes (directory base (u_path b)) (u_path u) names ->
  exists s, resolve_reference L reference base = Ok (Some s) /\
    forall r, L s = Some r ->
      u_scheme r = Some sch /\ u_auth r = Some (authority_of u b) /\
      u_path r = [SLASH] ++ join [SLASH] names ++ dir_suffix reference.
Proof.
  intros L reference base u b sch names OK H1 H2 H3 H4 D.
  exists (sch ++ bs "://" ++ authority_of u b ++ [SLASH] ++ join [SLASH] names ++ dir_suffix reference).
  split; [eapply C39_resolve; eauto|]. intros r R.
  destruct (uo_scheme L OK _ _ _ H3 H4) as (S1 & S2 & S3 & S4 & S5).
  assert (AU : ~ In 47%N (authority_of u b) /\ ~ In 63%N (authority_of u b) /\ ~ In 35%N (authority_of u b)).
  { unfold authority_of. destruct (u_auth u) eqn:A; [exact (uo_auth L OK _ _ _ H1 A)|].
    destruct (u_auth b) eqn:B; [exact (uo_auth L OK _ _ _ H3 B)|]. auto. }
  assert (PB : forall x, (x = 63%N \/ x = 35%N) -> ~ In x ([SLASH] ++ join [SLASH] names ++ dir_suffix reference)).
  { intros x X I. assert (NS : x <> SLASH) by (destruct X; subst; discriminate).
    assert (NU : ~ In x (u_path u)) by (destruct X; subst; apply (uo_path L OK _ _ H1)).
    assert (NB : ~ In x (u_path b)) by (destruct X; subst; apply (uo_path L OK _ _ H3)).
    apply in_app_or in I as [[I|[]]|I]; [congruence|]. apply in_app_or in I as [I|I].
    - revert I. apply join_bytes; auto. eapply denotes_bytes; [| |exact D]; auto.
    - unfold dir_suffix in I. destruct (_ || _); [|contradiction]. destruct I as [I|[]]. congruence. }
  destruct AU as (A1 & A2 & A3).
  rewrite (parts_unique L _ r sch (authority_of u b) ([SLASH] ++ join [SLASH] names ++ dir_suffix reference) OK R); auto.
  - right. eexists. reflexivity.
Qed.
Print Assumptions C39_keeps_scheme_and_authority.

(** A reference with a scheme is returned as it is. *)
Theorem C39_absolute : forall L reference base u b x,
  L reference = Some u -> u_scheme u = Some x -> L base = Some b ->
  resolve_reference L reference base = Ok (Some reference).
Proof. intros. unfold resolve_reference. rewrite H, H1, H0. auto. Qed.
Print Assumptions C39_absolute.

(** Text that is no URI reference resolves to nothing. *)
Theorem C39_invalid : forall L reference base, L reference = None ->
  resolve_reference L reference base = Ok None.
Proof. intros. unfold resolve_reference. rewrite H. auto. Qed.
Print Assumptions C39_invalid.

(** It panics exactly if the base is no URI, or has no scheme when one is needed. *)
Theorem C39_panics : forall L reference base u, L reference = Some u ->
  ((exists r, resolve_reference L reference base = Panic r) <->
   match L base with
   | None => True
   | Some b => u_scheme u = None /\ u_scheme b = None
   end) /\ resolve_reference L reference base <> OutOfFuel.
Proof.
  intros L reference base u H. unfold resolve_reference. rewrite H.
  destruct (L base) as [b|]; [|split; [split; [auto|]|]; [eexists; reflexivity|discriminate]].
  destruct (u_scheme u).
  - split; [|discriminate]. split; [intros (r & R)|intros [R _]]; discriminate.
  - destruct (u_scheme b).
    + split; [|discriminate]. split; [intros (r & R)|intros [_ R]]; discriminate.
    + split; [split; [auto|]|]; [eexists; reflexivity|discriminate].
Qed.
Print Assumptions C39_panics.

(** *** On the text *)
(** The same on the text of the paths. A name of a path; and from a directory ([st]: its names, last first)
    along the parts between the slashes of a reference. *)
Definition a_name (v : str) : Prop := v <> [] /\ ~ In 47%N v /\ v <> bs "." /\ v <> bs "..".
Inductive leads : list str -> list str -> list str -> Prop :=
| l_end st : leads st [] (rev st)
| l_name st v r out : a_name v -> leads (v :: st) r out -> leads st (v :: r) out
| l_up st x r out : leads st r out -> leads (x :: st) (bs ".." :: r) out
| l_here st v r out : v = [] \/ v = bs "." -> leads st r out -> leads st (v :: r) out.
Definition ends_in (s : str) (c : N) : Prop := exists x, s = x ++ [c].
(** A base whose path is a directory, or a file in one. *)
Definition base_in (base path : str) (ds : list str) : Prop :=
  Forall a_name ds /\ exists file, path = bs "/" ++ flat_map (fun v => v ++ bs "/") ds ++ file /\
    ((file = [] /\ ends_in base 47) \/ (a_name file /\ ~ ends_in base 47)).

Lemma ends_with_in s c : ends_with s c = true <-> ends_in s c.
Proof.
  unfold ends_with, ends_in. split.
  - destruct (rev s) as [|x r] eqn:E; [discriminate|]. intros H. apply N.eqb_eq in H. subst x. exists (rev r).
    rewrite <- (rev_involutive s), E. reflexivity.
  - intros (x & ->). rewrite rev_app_distr. cbn. apply N.eqb_refl.
Qed.
Lemma split_plain c v s : ~ In c v -> split_on c (v ++ c :: s) = v :: split_on c s.
Proof.
  intros H. induction v as [|x v IH]; cbn [app split_on].
  - destruct (split_on c s) as [|p ps] eqn:E; [destruct s as [|y s]; cbn in E; [discriminate|destruct (split_on c s); [discriminate|destruct (y =? c)%N; discriminate]]|].
    rewrite N.eqb_refl. reflexivity.
  - rewrite IH by (intros I; apply H; right; auto). destruct (x =? c)%N eqn:E; [exfalso; apply H; left; lia|]. reflexivity.
Qed.
Lemma split_root s : split_on SLASH (47%N :: s) = [] :: split_on 47 s.
Proof. apply (split_plain 47 [] s). auto. Qed.
Lemma split_one c v : ~ In c v -> split_on c v = [v].
Proof.
  intros H. induction v as [|x v IH]; cbn [split_on]; auto. rewrite IH by (intros I; apply H; right; auto).
  destruct (x =? c)%N eqn:E; [exfalso; apply H; left; lia|]. reflexivity.
Qed.
Lemma split_dirs ds file : Forall a_name ds -> ~ In 47%N file -> split_on 47 (flat_map (fun v => v ++ bs "/") ds ++ file) = ds ++ [file].
Proof.
  intros D F. induction D as [|v ds V D IH]; cbn [flat_map app]; [apply split_one; auto|].
  rewrite <- !app_assoc. change (bs "/" ++ ?x) with (47%N :: x). rewrite split_plain by apply V. rewrite IH. reflexivity.
Qed.
Lemma split_join segs : Forall (fun v => ~ In 47%N v) segs -> segs <> [] -> split_on 47 (join [SLASH] segs) = segs.
Proof.
  intros F NE. induction F as [|v segs V F IH]; [tauto|]. destruct segs as [|w segs]; [cbn [join]; apply split_one; auto|].
  change (join [SLASH] (v :: w :: segs)) with (v ++ 47%N :: join [SLASH] (w :: segs)). rewrite split_plain by auto. rewrite IH by discriminate. reflexivity.
Qed.
Lemma name_part v : a_name v -> part_component v = [Normal v].
Proof.
  intros (N1 & _ & N2 & N3). unfold part_component. destruct v as [|x v]; [tauto|].
  destruct (beq (x :: v) (bs ".")) eqn:E1; [apply beq_eq in E1; congruence|]. destruct (beq (x :: v) (bs "..")) eqn:E2; [apply beq_eq in E2; congruence|]. reflexivity.
Qed.
Lemma names_parts ds : Forall a_name ds -> flat_map part_component ds = map Normal ds.
Proof. induction 1; cbn [flat_map map]; auto. rewrite name_part by auto. cbn [app]. congruence. Qed.
Lemma leads_walks st segs out : leads st segs out -> walks st (flat_map part_component segs) out.
Proof.
  induction 1; cbn [flat_map]; [constructor| | |].
  - rewrite name_part by auto. apply w_name. auto.
  - cbn [part_component bs app]. apply w_up. auto.
  - destruct H as [->| ->]; exact IHleads.
Qed.
Lemma walks_down ds st l out : walks (rev ds ++ st) l out -> walks st (map Normal ds ++ l) out.
Proof.
  revert st. induction ds as [|v ds IH]; intros st W; cbn [map app] in *; auto. apply w_name. apply IH. cbn [rev] in W. rewrite <- app_assoc in W. exact W.
Qed.
Lemma pop_last l x : x <> RootDir -> l <> [] -> pop_component (l ++ [x]) = l.
Proof.
  intros X. induction l as [|c l IH]; [tauto|]. intros _. destruct l as [|c' l].
  - destruct c, x; cbn; congruence.
  - change ((c :: c' :: l) ++ [x]) with (c :: (c' :: l) ++ [x]). assert (E : (c' :: l) ++ [x] <> []) by discriminate.
    replace (pop_component (c :: (c' :: l) ++ [x])) with (c :: pop_component ((c' :: l) ++ [x])) by (destruct c; reflexivity).
    rewrite IH by discriminate. reflexivity.
Qed.
Lemma directory_text base path ds : base_in base path ds -> directory base path = RootDir :: map Normal ds.
Proof.
  intros (D & file & -> & F). unfold directory.
  assert (NF : ~ In 47%N file) by (destruct F as [[-> _]|[(_ & F & _) _]]; auto).
  assert (E : path_components (bs "/" ++ flat_map (fun v => v ++ bs "/") ds ++ file) = RootDir :: map Normal ds ++ part_component file).
  { unfold path_components. cbn [bs app]. cbn [has_root]. change ((47 =? SLASH)%N) with true. cbv iota.
    rewrite split_root. rewrite split_dirs by auto.
    cbn [flat_map part_component app]. rewrite flat_map_app, names_parts by auto. cbn [flat_map]. rewrite app_nil_r. reflexivity. }
  rewrite E. destruct F as [[-> F]|[F NB]].
  - apply ends_with_in in F. change SLASH with 47%N. rewrite F. cbn [part_component]. rewrite app_nil_r. reflexivity.
  - destruct (ends_with base SLASH) eqn:Q; [apply ends_with_in in Q; contradiction|]. rewrite name_part by auto.
    change (RootDir :: map Normal ds ++ [Normal file]) with ((RootDir :: map Normal ds) ++ [Normal file]). apply pop_last; discriminate.
Qed.
(** What a reference without scheme means, for a base in the directory [ds]. It may not leave the root. *)
Theorem C39_text : forall L reference base u b sch ds segs names,
  L reference = Some u -> u_scheme u = None -> L base = Some b -> u_scheme b = Some sch ->
  base_in base (u_path b) ds -> Forall (fun v => ~ In 47%N v) segs -> segs <> [] ->
  (* relative to the directory, or to the root *)
  (u_path u = join [47%N] segs /\ (forall r, segs <> [] :: r) /\ leads (rev ds) segs names) \/
  (u_path u = bs "/" ++ join [47%N] segs /\ (forall v r, ds = v :: r -> ~ In 58%N v) /\ leads [] segs names) ->
  exists suffix, resolve_reference L reference base = Ok (Some (sch ++ bs "://" ++ authority_of u b ++ bs "/" ++ join [47%N] names ++ suffix)) /\
    (ends_in reference 47 \/ ends_in reference 46 -> suffix = bs "/") /\ (~ ends_in reference 47 -> ~ ends_in reference 46 -> suffix = []).
Proof.
  intros L reference base u b sch ds segs names H1 H2 H3 H4 BI SG NE H5. exists (dir_suffix reference). split.
  - apply (C39_resolve L reference base u b sch names); auto. rewrite (directory_text _ _ _ BI).
    destruct H5 as [(E & NR & LD)|(E & ND & LD)]; rewrite E.
    + destruct segs as [|s0 segs]; [tauto|]. assert (NS : s0 <> []) by (intros ->; eapply NR; eauto).
      assert (HR : has_root (join [SLASH] (s0 :: segs)) = false).
      { inversion SG as [|? ? S0 _]; subst. destruct s0 as [|x s0]; [tauto|]. assert (X : x <> 47%N) by (intros ->; apply S0; left; auto).
        destruct segs; cbn; unfold SLASH; lia. }
      eapply den_relative; [exact HR|reflexivity|]. apply walks_down. rewrite app_nil_r.
      unfold path_components. change [47%N] with [SLASH]. rewrite HR, split_join by (auto; discriminate).
      assert (W := leads_walks _ _ _ LD). cbn [flat_map] in W. destruct (beq s0 (bs ".")) eqn:B; [|exact W].
      apply beq_eq in B. subst s0. cbn [part_component beq bs app] in W. cbn [app]. apply w_here. exact W.
    + assert (PC : path_components (bs "/" ++ join [SLASH] segs) = RootDir :: flat_map part_component segs).
      { unfold path_components. cbn [bs app has_root]. change ((47 =? SLASH)%N) with true. cbv iota.
        rewrite split_root. rewrite split_join by auto. reflexivity. }
      eapply den_rooted; [exact PC|]. assert (W := leads_walks _ _ _ LD).
      destruct ds as [|v ds]; [exact W|]. cbn [map]. assert (HC : has_colon v = false).
      { destruct (has_colon v) eqn:Q; auto. exfalso. apply (ND v ds eq_refl). unfold has_colon in Q. apply existsb_exists in Q as (x & X & Q). apply N.eqb_eq in Q. subst x. exact X. }
      rewrite HC. cbn [andb]. destruct (flat_map part_component segs) as [|[] ?]; exact W.
  - unfold dir_suffix. split.
    + intros [Q|Q]; apply ends_with_in in Q; change SLASH with 47%N; rewrite Q; rewrite ?orb_true_r; reflexivity.
    + intros Q1 Q2. destruct (ends_with reference SLASH) eqn:B1; [apply ends_with_in in B1; contradiction|].
      destruct (ends_with reference 46) eqn:B2; [apply ends_with_in in B2; contradiction|]. reflexivity.
Qed.
Print Assumptions C39_text.

(** *** Non-vacuity *)
Definition rfc_resolve (r b : string) : res (option str) := resolve_reference rfc_uri (bs r) (bs b).
Example C39_demo :
  denotes (directory (bs "http://model/x/y/1.html") (bs "/x/y/1.html")) (bs "../z/./c.js") [bs "x"; bs "z"; bs "c.js"] /\
  rfc_resolve "../z/./c.js" "http://model/x/y/1.html" = Ok (Some (bs "http://model/x/z/c.js")).
Proof.
  split; [|vm_compute; reflexivity].
  eapply den_relative with (D := [Normal (bs "x"); Normal (bs "y")]); [reflexivity|vm_compute; reflexivity|].
  vm_compute. repeat constructor.
Qed.
Example C39_demo_drive :
  denotes (directory (bs "file:///C:/a/b.html") (bs "/C:/a/b.html")) (bs "/c.js") [bs "C:"; bs "c.js"] /\
  rfc_resolve "/c.js" "file:///C:/a/b.html" = Ok (Some (bs "file:///C:/c.js")).
Proof.
  split; [|vm_compute; reflexivity].
  eapply den_rooted with (r := [Normal (bs "c.js")]); [vm_compute; reflexivity|]. vm_compute. repeat constructor.
Qed.

(** "http://model/x/y/1.html" and "../z/./c.js"; "http://model/x/" and "/a/b/..". *)
Example C39_text_demo :
  base_in (bs "http://model/x/y/1.html") (bs "/x/y/1.html") [bs "x"; bs "y"] /\
  bs "../z/./c.js" = join [47%N] [bs ".."; bs "z"; bs "."; bs "c.js"] /\
  leads (rev [bs "x"; bs "y"]) [bs ".."; bs "z"; bs "."; bs "c.js"] [bs "x"; bs "z"; bs "c.js"] /\
  base_in (bs "http://model/x/") (bs "/x/") [bs "x"] /\ leads [] [bs "a"; bs "b"; bs ".."] [bs "a"] /\
  rfc_resolve "/a/b/.." "http://model/x/" = Ok (Some (bs "http://model/a/")).
Proof.
  assert (NM : forall v, negb (beq v [] || existsb (N.eqb 47) v || beq v (bs ".") || beq v (bs "..")) = true -> a_name v).
  { intros v H. apply negb_true_iff in H. rewrite !orb_false_iff in H. destruct H as [[[A B] C] D].
    repeat split.
    - intros ->. discriminate A.
    - intros I. rewrite <- not_true_iff_false in B. apply B. apply existsb_exists. exists 47%N. auto.
    - intros ->. discriminate C.
    - intros ->. discriminate D. }
  split.
  { split; [repeat constructor; apply NM; reflexivity|]. exists (bs "1.html"). split; [reflexivity|]. right. split; [apply NM; reflexivity|].
    intros Q. apply ends_with_in in Q. discriminate Q. }
  split; [reflexivity|]. split.
  { cbn [rev app]. apply l_up. apply l_name; [apply NM; reflexivity|]. apply l_here; auto. apply l_name; [apply NM; reflexivity|]. apply l_end. }
  split.
  { split; [repeat constructor; apply NM; reflexivity|]. exists []. split; [reflexivity|]. left. split; auto. apply ends_with_in. reflexivity. }
  split; [|vm_compute; reflexivity].
  apply l_name; [apply NM; reflexivity|]. apply l_name; [apply NM; reflexivity|]. apply l_up. apply l_end.
Qed.

(** *** Findings *)
(** [..] above the root drops the leading slash: the path runs into the
    authority, and the result names another host. *)
Theorem C39_climb_refuted : exists s b u r,
  rfc_resolve "../.evil.org/x" "https://example.com/index.html" = Ok (Some s) /\
  rfc_uri (bs "https://example.com/index.html") = Some b /\ u_auth b = Some (bs "example.com") /\
  rfc_uri (bs "../.evil.org/x") = Some u /\ u_scheme u = None /\ u_auth u = None /\
  rfc_uri s = Some r /\ u_auth r = Some (bs "example.com.evil.org").
Proof. do 4 eexists. repeat match goal with |- _ /\ _ => split end; vm_compute; reflexivity. Qed.
Print Assumptions C39_climb_refuted.
(** So does a leading [./] when the base has no path. *)
Theorem C39_dot_refuted : exists s r,
  rfc_resolve "./a.js" "http://example.com" = Ok (Some s) /\
  rfc_uri s = Some r /\ u_auth r = Some (bs "example.coma.js") /\ u_path r = [].
Proof. do 2 eexists. repeat match goal with |- _ /\ _ => split end; vm_compute; reflexivity. Qed.
Print Assumptions C39_dot_refuted.
(** The query and the fragment of a relative reference are lost. *)
Theorem C39_query_refuted :
  rfc_resolve "list?page=2#top" "http://example.com/a" = Ok (Some (bs "http://example.com/list")).
Proof. vm_compute. reflexivity. Qed.
Print Assumptions C39_query_refuted.
(** A reference that only has a fragment or query resolves to the directory. *)
Theorem C39_empty_path_refuted :
  rfc_resolve "?page=2" "http://example.com/d/a.html" = Ok (Some (bs "http://example.com/d")).
Proof. vm_compute. reflexivity. Qed.
Print Assumptions C39_empty_path_refuted.
(** Whether the base is a directory is read off its last character, not off its path: a query or fragment
    behind a directory makes it a file, and a slash at the end of a query makes a file a directory. *)
Theorem C39_base_query_refuted :
  rfc_resolve "b.js" "http://example.com/d/?q" = Ok (Some (bs "http://example.com/b.js")) /\
  rfc_resolve "b.js" "http://example.com/d/a.html?q=/" = Ok (Some (bs "http://example.com/d/a.html/b.js")).
Proof. split; vm_compute; reflexivity. Qed.
Print Assumptions C39_base_query_refuted.
