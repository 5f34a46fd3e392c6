(** * Finding links gives an answer (C61) *)
From Verif Require Import SelectionRange Base BaseFacts Stream Scanner ScannerFacts ScanStep ScanProps ScanPanic ScanShape ScanResume Tree Parser ParseSpec ParseInv PropParse TextDoc PropDoc
  ScanLocal SelAttr TokenLoop Folding PropFolding DataManager Uri PropUri Links PropLinks PropAnswers PropHoverDoc.
From Coq Require Import ZifyBool ZifyNat ZifyN.

(** ** More of the URI parser *)
(** Cutting off a query or a fragment leaves a URI with the same scheme, authority and path; a
    fragment may be replaced by a line and a column; the authority and the path of a URI that has an
    authority or a path from the root make a file URI. *)
Definition same_front (u v : uri_parts) : Prop := u_scheme u = u_scheme v /\ u_auth u = u_auth v /\ u_path u = u_path v.
Definition has_auth_or_root (u : uri_parts) : Prop := u_auth u <> None \/ u_path u = [] \/ exists p, u_path u = 47%N :: p.
Record uri_closed (L : uri_lib) : Prop := {
  uc_query : forall a b u, L (a ++ 63%N :: b) = Some u -> exists u', L a = Some u' /\ same_front u' u;
  uc_frag : forall a f u, L (a ++ 35%N :: f) = Some u -> exists u', L a = Some u' /\ same_front u' u;
  uc_place : forall a f m n u, L (a ++ 35%N :: f) = Some u -> L (a ++ 35%N :: show_nat m ++ bs "," ++ show_nat n) <> None;
  uc_file : forall s u, L s = Some u -> has_auth_or_root u ->
    L (bs "file://" ++ match u_auth u with Some a => a | None => [] end ++ u_path u) <> None
}.

(** *** The grammar of RFC 3986 has these *)
Lemma break_stop f a b : Forall (fun c => f c = false) a -> match b with c :: _ => f c = true | [] => True end -> break f (a ++ b) = (a, b).
Proof.
  induction a as [|x a IH]; intros F B; cbn [app].
  - destruct b as [|c b]; cbn [break]; auto. rewrite B. auto.
  - inversion F; subst. cbn [break]. rewrite H1, IH; auto.
Qed.
Lemma not_in_forall (f : N -> bool) s : (forall c, f c = true -> ~ In c s) -> Forall (fun c => f c = false) s.
Proof. intros H. apply Forall_forall. intros c I. destruct (f c) eqn:F; auto. exfalso. eapply H; eauto. Qed.
Lemma pct_cut f c : is_hex c = false -> c <> 37%N -> forall a b, pct_all f (a ++ c :: b) = true -> pct_all f a = true.
Proof.
  intros HX NP a. remember (length a) as n eqn:LN. revert a LN. induction n as [n IH] using lt_wf_ind. intros a -> b H.
  destruct a as [|x a]; auto. cbn [app pct_all] in *. destruct (x =? 37)%N.
  - destruct a as [|h1 a]; cbn [app] in H.
    { destruct b; rewrite ?HX in H; cbn in H; discriminate. }
    destruct a as [|h2 a]; cbn [app] in H.
    { rewrite HX in H. rewrite andb_false_r in H. discriminate. }
    apply andb_prop in H as [-> H]. cbn [andb]. eapply IH; [|reflexivity|exact H]. cbn. lia.
  - apply andb_prop in H as [-> H]. cbn [andb]. eapply IH; [|reflexivity|exact H]. cbn. lia.
Qed.
Lemma pct_in f c : forall n a, length a <= n -> pct_all f a = true -> In c a -> f c = true \/ is_hex c = true \/ c = 37%N.
Proof.
  induction n as [|n IH]; intros a LE H I; destruct a as [|x a]; try contradiction; [cbn in LE; lia|].
  cbn [pct_all] in H. cbn [length] in LE. destruct (x =? 37)%N eqn:X.
  - destruct a as [|h1 [|h2 a]]; try discriminate. apply andb_prop in H as [H H3]. apply andb_prop in H as [H1 H2].
    destruct I as [->|[->|[->|I]]]; auto; [right; right; lia|]. eapply IH; eauto. cbn in LE. lia.
  - apply andb_prop in H as [H1 H2]. destruct I as [->|I]; auto. eapply IH; eauto. lia.
Qed.

(** The parts of a URI are what its string splits into. *)
Definition parts_ok (u : uri_parts) : Prop :=
  (forall x, u_scheme u = Some x -> scheme_ok x = true /\ ~ In 58%N x) /\
  (forall a, u_auth u = Some a -> (~ In 47%N a /\ ~ In 63%N a /\ ~ In 35%N a) /\ (u_path u = [] \/ exists p, u_path u = 47%N :: p)) /\
  (u_auth u = None -> is_prefix (bs "//") (u_path u) = false) /\
  ~ In 63%N (u_path u) /\ ~ In 35%N (u_path u) /\ (forall q, u_query u = Some q -> ~ In 35%N q).

Lemma colon_first p : existsb (N.eqb 58) (fst (break (N.eqb 47) p)) = false ->
  exists a b, p = a ++ b /\ ~ In 58%N a /\ ~ In 47%N a /\ match b with c :: _ => c = 47%N | [] => True end.
Proof.
  intros H. destruct (break (N.eqb 47) p) as [a b] eqn:B. cbn [fst] in H. apply break_app in B as (-> & F & C).
  exists a, b. split; auto. split; [|split].
  - intros I. assert (existsb (N.eqb 58) a = true) by (apply existsb_exists; exists 58%N; auto). congruence.
  - eapply forall_not_in; [exact F|reflexivity].
  - destruct b; auto. lia.
Qed.
Lemma split_recompose u : parts_ok u -> rfc_valid u = true -> rfc_split (recompose u) = (u, []).
Proof.
  intros (S1 & A1 & A2 & P1 & P2 & Q1) V. destruct u as [sch au p q f]. cbn [u_scheme u_auth u_path u_query u_frag] in *.
  set (tail := opt_pre (bs "?") q ++ opt_pre (bs "#") f).
  assert (TH : match tail with c :: _ => c = 63%N \/ c = 35%N | [] => True end).
  { unfold tail. destruct q; cbn; auto. destruct f; cbn; auto. }
  set (r2 := p ++ tail). set (r1 := opt_pre (bs "//") au ++ r2).
  assert (E : recompose (mkUri sch au p q f) = opt_post sch (bs ":") ++ r1) by reflexivity. rewrite E. clear E.
  assert (SS : split_scheme (opt_post sch (bs ":") ++ r1) = (sch, r1)).
  { unfold split_scheme. destruct sch as [x|].
    - destruct (S1 x eq_refl) as [O NC]. destruct (scheme_chars x O) as (N1 & N2 & N3 & _). cbn [opt_post]. rewrite <- app_assoc.
      rewrite break_stop.
      + cbn. rewrite O. reflexivity.
      + apply not_in_forall. intros c C I. cbn [existsb] in C. assert (c = 58%N \/ c = 47%N \/ c = 63%N \/ c = 35%N) by lia.
        destruct H as [-> |[-> |[-> | ->]]]; auto.
      + reflexivity.
    - cbn [opt_post app]. destruct au as [a|].
      { unfold r1. cbn [opt_pre]. change (bs "//" ++ a) with (47%N :: 47%N :: a). cbn [app break existsb]. reflexivity. }
      unfold r1. cbn [opt_pre app]. unfold r2. unfold rfc_valid in V. cbn [u_path u_auth u_scheme u_query u_frag] in V.
      apply andb_prop in V as [_ V]. apply negb_true_iff in V. destruct (colon_first p V) as (a & b & -> & N1 & N2 & HB).
      rewrite <- app_assoc, break_stop.
      + destruct (b ++ tail) as [|c z] eqn:Z; auto. destruct (c =? 58)%N eqn:C; auto. exfalso. assert (c = 58%N) by lia. subst c.
        destruct b as [|c' b]; cbn [app] in Z; [rewrite Z in TH; destruct TH; discriminate|]. inversion Z; subst. discriminate.
      + apply not_in_forall. intros c C I. cbn [existsb] in C. assert (c = 58%N \/ c = 47%N \/ c = 63%N \/ c = 35%N) as [-> |[-> |[-> | ->]]] by lia; auto.
        * apply P1. apply in_or_app. auto.
        * apply P2. apply in_or_app. auto.
      + destruct b as [|c' b]; cbn [app]; [|rewrite HB; reflexivity]. destruct tail as [|c z]; auto. destruct TH as [-> | ->]; reflexivity. }
  assert (SA : split_auth r1 = (au, r2)).
  { unfold r1. destruct au as [a|].
    - cbn [opt_pre]. change ((bs "//" ++ a) ++ r2) with (47%N :: 47%N :: a ++ r2). unfold split_auth.
      change ((47 =? 47)%N && (47 =? 47)%N) with true. cbv iota. destruct (A1 a eq_refl) as ((N1 & N2 & N3) & PH). rewrite break_stop; auto.
      + apply not_in_forall. intros c C I. cbn [existsb] in C. assert (c = 47%N \/ c = 63%N \/ c = 35%N) as [-> |[-> | ->]] by lia; auto.
      + unfold r2. destruct PH as [-> |(p' & ->)]; [|reflexivity]. cbn [app]. destruct tail; auto. destruct TH as [-> | ->]; reflexivity.
    - cbn [opt_pre app]. specialize (A2 eq_refl). unfold split_auth. destruct r2 as [|c1 [|c2 z]] eqn:R; auto.
      destruct ((c1 =? 47)%N && (c2 =? 47)%N) eqn:C; auto. exfalso. apply andb_prop in C as [C1 C2].
      assert (c1 = 47%N) by lia. assert (c2 = 47%N) by lia. subst. unfold r2 in R.
      destruct p as [|p1 p]; cbn [app] in R; [rewrite R in TH; destruct TH; discriminate|]. injection R as -> R.
      destruct p as [|p2 p]; cbn [app] in R; [rewrite R in TH; destruct TH; discriminate|]. injection R as -> R. discriminate. }
  unfold rfc_split. rewrite SS, SA. unfold r2. rewrite break_stop; [| |].
  - unfold tail. destruct q as [q|].
    + cbn [opt_pre]. change (bs "?" ++ q) with (63%N :: q). cbn [app]. unfold split_after at 1. rewrite N.eqb_refl. rewrite break_stop.
      * destruct f as [f|]; cbn [opt_pre]; [|reflexivity]. change (bs "#" ++ f) with (35%N :: f). unfold split_after. rewrite N.eqb_refl.
        rewrite <- (app_nil_r f) at 1. rewrite break_stop; auto. apply Forall_forall. auto.
      * apply not_in_forall. intros c C I. assert (c = 35%N) by lia. subst. eapply Q1; eauto.
      * destruct f; cbn; auto.
    + cbn [opt_pre app]. destruct f as [f|]; cbn [opt_pre]; [|reflexivity]. change (bs "#" ++ f) with (35%N :: f). unfold split_after.
      change (35 =? 63)%N with false. cbv iota. rewrite N.eqb_refl.
      rewrite <- (app_nil_r f) at 1. rewrite break_stop; auto. apply Forall_forall. auto.
  - apply not_in_forall. intros c C I. assert (c = 63%N \/ c = 35%N) as [-> | ->] by lia; auto.
  - destruct tail; auto. lia.
Qed.
Lemma rfc_recompose u : parts_ok u -> rfc_valid u = true -> rfc_uri (recompose u) = Some u.
Proof. intros P V. unfold rfc_uri. rewrite split_recompose, V by auto. reflexivity. Qed.

Lemma cut_at (c : N) x : forall y a b, ~ In c x -> x ++ y = a ++ c :: b -> exists a', a = x ++ a' /\ y = a' ++ c :: b.
Proof.
  induction x as [|z x IH]; intros y a b NI E; [exists a; auto|]. destruct a as [|z' a]; cbn [app] in E; inversion E; subst.
  - exfalso. apply NI. left. auto.
  - destruct (IH y a b) as (a' & -> & ->); auto. { intros I. apply NI. right. auto. } exists a'. auto.
Qed.
Definition front (u : uri_parts) : str := opt_post (u_scheme u) (bs ":") ++ opt_pre (bs "//") (u_auth u) ++ u_path u.
Lemma recompose_front u : recompose u = front u ++ opt_pre (bs "?") (u_query u) ++ opt_pre (bs "#") (u_frag u).
Proof. unfold recompose, front. rewrite <- !app_assoc. reflexivity. Qed.
Lemma front_no u c : parts_ok u -> c = 63%N \/ c = 35%N -> ~ In c (front u).
Proof.
  intros (S1 & A1 & A2 & P1 & P2 & Q1) C I. unfold front in I. apply in_app_or in I as [I|I]; [|apply in_app_or in I as [I|I]].
  - destruct (u_scheme u) as [x|]; [|contradiction]. destruct (S1 x eq_refl) as [O _]. destruct (scheme_chars x O) as (_ & N2 & N3 & _).
    cbn [opt_post] in I. apply in_app_or in I as [I|[<-|[]]]; [destruct C; subst; auto|destruct C; discriminate].
  - destruct (u_auth u) as [x|]; [|contradiction]. destruct (A1 x eq_refl) as ((_ & N2 & N3) & _).
    cbn [opt_pre] in I. apply in_app_or in I as [[<-|[<-|[]]]|I]; [destruct C; discriminate|destruct C; discriminate|destruct C; subst; auto].
  - destruct C; subst; auto.
Qed.
Lemma rfc_ok s u : rfc_uri s = Some u -> s = recompose u /\ parts_ok u /\ rfc_valid u = true.
Proof.
  intros H. destruct (rfc_parts s u H) as (E & P). apply rfc_some in H as (s5 & _ & V). split; auto.
Qed.
(** Other queries and fragments on the same front. *)
Lemma valid_front u : rfc_valid u = true -> forall q f, opt_ok qf_ok q = true -> opt_ok qf_ok f = true ->
  rfc_valid (mkUri (u_scheme u) (u_auth u) (u_path u) q f) = true.
Proof.
  unfold rfc_valid. cbn [u_scheme u_auth u_path u_query u_frag]. intros V q f -> ->. destruct (pct_all _ _), (opt_ok auth_ok _); cbn [andb] in *; try discriminate.
  apply andb_prop in V as [_ V]. exact V.
Qed.
Lemma other_tail u q f : parts_ok u -> rfc_valid u = true -> opt_ok qf_ok q = true -> opt_ok qf_ok f = true -> (forall x, q = Some x -> ~ In 35%N x) ->
  rfc_uri (front u ++ opt_pre (bs "?") q ++ opt_pre (bs "#") f) = Some (mkUri (u_scheme u) (u_auth u) (u_path u) q f).
Proof.
  intros (S1 & A1 & A2 & P1 & P2 & Q1) V Q F NQ. rewrite <- (rfc_recompose (mkUri (u_scheme u) (u_auth u) (u_path u) q f)).
  - rewrite recompose_front. reflexivity.
  - split; [exact S1|]. split; [exact A1|]. split; [exact A2|]. split; [exact P1|]. split; [exact P2|]. exact NQ.
  - apply valid_front; auto.
Qed.
Lemma valid_tail u : rfc_valid u = true -> opt_ok qf_ok (u_query u) = true /\ opt_ok qf_ok (u_frag u) = true.
Proof. unfold rfc_valid. destruct (opt_ok qf_ok (u_query u)), (opt_ok qf_ok (u_frag u)); auto; rewrite ?andb_false_r; discriminate. Qed.
Lemma qf_no_hash x : qf_ok x = true -> ~ In 35%N x.
Proof. intros H I. destruct (pct_in _ 35%N _ x (le_n _) H I) as [X|[X|X]]; vm_compute in X; discriminate. Qed.
Lemma digit_char n : Forall (fun c => 48 <= c <= 57)%N (show_nat n).
Proof.
  unfold show_nat. assert (H : forall u, Forall (fun c => 48 <= c <= 57)%N (bs (DecimalString.NilEmpty.string_of_uint u))).
  { induction u; [constructor|constructor; [split; vm_compute; discriminate|exact IHu]..]. }
  unfold DecimalString.NilZero.string_of_uint. destruct (Nat.to_uint n); try apply H. constructor; [split; vm_compute; discriminate|constructor].
Qed.
Lemma pct_plain f s : Forall (fun c => f c = true /\ c <> 37%N) s -> pct_all f s = true.
Proof. induction 1 as [|c s [H1 H2] _ IH]; auto. cbn [pct_all]. replace (c =? 37)%N with false by lia. rewrite H1, IH. reflexivity. Qed.
Lemma place_ok m n : qf_ok (show_nat m ++ bs "," ++ show_nat n) = true.
Proof.
  apply pct_plain. assert (D : forall n, Forall (fun c => (is_pchar c || (c =? 47)%N || (c =? 63)%N) = true /\ c <> 37%N) (show_nat n)).
  { intros k. eapply Forall_impl; [|apply digit_char]. cbv beta. intros c C. split; [|lia].
    unfold is_pchar, is_unreserved, ascii_alnum, ascii_digit. replace ((48 <=? c) && (c <=? 57))%N with true by lia. rewrite !orb_true_r. reflexivity. }
  apply Forall_app. split; auto. apply Forall_app. split; auto. repeat constructor. discriminate.
Qed.

Lemma app_cut (c : N) x : forall y a b, x ++ y = a ++ c :: b -> (exists m, x = a ++ c :: m /\ b = m ++ y) \/ (exists m, a = x ++ m /\ y = m ++ c :: b).
Proof.
  induction x as [|z x IH]; intros y a b E; [right; exists a; auto|]. destruct a as [|z' a]; cbn [app] in E; inversion E; subst.
  - left. exists x. auto.
  - destruct (IH y a b) as [(m & -> & ->)|(m & -> & ->)]; auto; [left|right]; exists m; auto.
Qed.
Lemma qf_cut c a b : c = 63%N \/ c = 35%N -> qf_ok (a ++ c :: b) = true -> qf_ok a = true.
Proof. intros C H. eapply pct_cut; [| |exact H]; destruct C; subst; try reflexivity; discriminate. Qed.

Theorem C61_rfc_contract : uri_closed rfc_uri.
Proof.
  assert (HASH : forall a f u, rfc_uri (a ++ 35%N :: f) = Some u -> parts_ok u /\ rfc_valid u = true /\ a = front u ++ opt_pre (bs "?") (u_query u) /\ u_frag u = Some f).
  { intros a f u H. destruct (rfc_ok _ _ H) as (E & P & V). destruct (valid_tail u V) as [VQ VF]. rewrite recompose_front in E.
    symmetry in E. apply cut_at in E as (a' & -> & E); [|apply front_no; auto].
    assert (NQ : ~ In 35%N (opt_pre (bs "?") (u_query u))).
    { destruct (u_query u) as [q|]; cbn [opt_pre opt_ok] in *; [|intros []]. intros [I|I]; [discriminate|]. apply (qf_no_hash q VQ I). }
    apply cut_at in E as (m & -> & E); auto. destruct (u_frag u) as [g|]; cbn [opt_pre opt_ok] in *; [|destruct m; discriminate].
    change (bs "#" ++ g) with (35%N :: g) in E. destruct m as [|c m]; cbn [app] in E.
    - injection E as ->. rewrite app_nil_r. auto.
    - injection E as E1 E2. exfalso. apply (qf_no_hash g VF). rewrite E2. apply in_or_app. right. left. auto. }
  split.
  - intros a b u H. destruct (rfc_ok _ _ H) as (E & P & V). destruct (valid_tail u V) as [VQ VF]. rewrite recompose_front in E.
    symmetry in E. apply cut_at in E as (a' & -> & E); [|apply front_no; auto].
    assert (FR : forall m, opt_pre (bs "#") (u_frag u) = m ++ 63%N :: b -> exists f, m = opt_pre (bs "#") f /\ opt_ok qf_ok f = true).
    { intros m E2. destruct (u_frag u) as [f|]; cbn [opt_pre opt_ok] in *; [|destruct m; discriminate].
      change (bs "#" ++ f) with (35%N :: f) in E2. destruct m as [|c m]; cbn [app] in E2; [discriminate|]. injection E2 as <- ->.
      exists (Some m). split; auto. cbn [opt_ok]. eapply qf_cut; [|exact VF]; auto. }
    assert (R : exists q f, a' = opt_pre (bs "?") q ++ opt_pre (bs "#") f /\ opt_ok qf_ok q = true /\ opt_ok qf_ok f = true /\ (forall x, q = Some x -> ~ In 35%N x)).
    { destruct (u_query u) as [q|] eqn:UQ; cbn [opt_pre opt_ok] in *.
      - change (bs "?" ++ q) with (63%N :: q) in E. destruct a' as [|c a']; cbn [app] in E.
        + exists None, None. split; [reflexivity|]. split; auto. split; auto. discriminate.
        + injection E as <- E. apply app_cut in E as [(m & -> & _)|(m & -> & E)].
          * exists (Some a'), None. assert (VA : qf_ok a' = true) by (eapply qf_cut; [|exact VQ]; auto).
            split; [cbn [opt_pre]; rewrite app_nil_r; reflexivity|]. split; auto. split; auto. intros x X. inversion X; subst. apply qf_no_hash; auto.
          * destruct (FR m E) as (f & -> & F). exists (Some q), f. split; [reflexivity|]. split; auto. split; auto.
            intros x X. inversion X; subst. apply qf_no_hash; auto.
      - cbn [app] in E. destruct (FR a' E) as (f & -> & F). exists None, f. split; [reflexivity|]. split; auto. split; auto. discriminate. }
    destruct R as (q & f & -> & Q & F & NQ). rewrite other_tail by auto. eexists. split; [reflexivity|]. repeat split.
  - intros a f u H. destruct (HASH a f u H) as (P & V & -> & _). destruct (valid_tail u V) as [VQ _].
    exists (mkUri (u_scheme u) (u_auth u) (u_path u) (u_query u) None). split; [|repeat split].
    rewrite <- (other_tail u (u_query u) None P V VQ eq_refl); [cbn [opt_pre]; rewrite app_nil_r; reflexivity|].
    intros x X. rewrite X in VQ. apply qf_no_hash; auto.
  - intros a f m n u H. destruct (HASH a f u H) as (P & V & -> & _). destruct (valid_tail u V) as [VQ _].
    pose proof (other_tail u (u_query u) (Some (show_nat m ++ bs "," ++ show_nat n)) P V VQ (place_ok m n)) as O. cbn [opt_pre] in O.
    rewrite <- app_assoc. change (35%N :: show_nat m ++ bs "," ++ show_nat n) with (bs "#" ++ show_nat m ++ bs "," ++ show_nat n). rewrite O; [discriminate|].
    intros x X. rewrite X in VQ. apply qf_no_hash; auto.
  - intros s u H R. destruct (rfc_ok _ _ H) as (_ & (S1 & A1 & A2 & P1 & P2 & Q1) & V).
    set (au := match u_auth u with Some a => a | None => [] end).
    set (v := mkUri (Some (bs "file")) (Some au) (u_path u) None None).
    assert (E : bs "file://" ++ au ++ u_path u = recompose v).
    { unfold recompose, v. cbn [u_scheme u_auth u_path u_query u_frag opt_pre opt_post]. rewrite !app_nil_r, <- !app_assoc. reflexivity. }
    change (rfc_uri (bs "file://" ++ au ++ u_path u) <> None). rewrite E, rfc_recompose; [discriminate| |].
    + unfold parts_ok, v. cbn [u_scheme u_auth u_path u_query u_frag]. split; [|split; [|split; [|split; [|split]]]]; auto; try discriminate.
      * intros x X. inversion X; subst. split; [reflexivity|]. intros [I|[I|[I|[I|[]]]]]; discriminate.
      * intros a X. inversion X; subst a. unfold au. destruct (u_auth u) as [a|] eqn:UA; [apply A1; auto|]. split; [split; [|split]; intros []|].
        destruct R as [R|R]; [congruence|]. auto.
    + unfold rfc_valid, v in *. cbn [u_scheme u_auth u_path u_query u_frag opt_ok] in *. destruct (pct_all _ _); [|discriminate]. cbn [andb].
      unfold au. destruct (u_auth u) as [a|]; cbn [opt_ok] in V; [|reflexivity]. destruct (auth_ok a); [reflexivity|discriminate].
Qed.
Print Assumptions C61_rfc_contract.

(** ** Targets are cleaned *)
(** [file:] is followed by a slash of either kind. *)
Definition slash_file (w : str) : Prop := forall r, w = bs "file:" ++ r -> exists c r', r = c :: r' /\ (c = 47%N \/ c = 92%N).
Definition slashes (w : str) : str := map (fun c => if (c =? 92)%N then 47%N else c) w.
Lemma slashes_no w : ~ In 92%N (slashes w).
Proof. unfold slashes. intros I. apply in_map_iff in I as (c & E & _). destruct (c =? 92)%N eqn:C; [discriminate|lia]. Qed.
Lemma slashes_file w r : slashes w = bs "file:" ++ r -> exists r', w = bs "file:" ++ r' /\ r = slashes r'.
Proof.
  assert (X : forall p w, ~ In 47%N p -> slashes w = p ++ r -> exists r', w = p ++ r' /\ r = slashes r').
  { induction p as [|c p IH]; intros w' NI E; [exists w'; auto|]. destruct w' as [|c' w']; [discriminate|]. cbn [slashes map app] in E. injection E as E1 E2.
    destruct (IH w') as (r' & -> & ->); auto. { intros I. apply NI. right. auto. } exists r'. split; auto. cbn [app]. f_equal.
    destruct (c' =? 92)%N; auto. subst c. exfalso. apply NI. left. auto. }
  apply X. intros [I|[I|[I|[I|[I|[]]]]]]; discriminate.
Qed.
Section Clean.
Variables (L : uri_lib) (uri : str).
Hypothesis LO : uri_ok L.
Hypothesis LC : uri_closed L.

Lemma scheme_file s u : L s = Some u -> u_scheme u = Some (bs "file") -> exists r, s = bs "file:" ++ r /\
  r = opt_pre (bs "//") (u_auth u) ++ u_path u ++ opt_pre (bs "?") (u_query u) ++ opt_pre (bs "#") (u_frag u).
Proof.
  intros H F. pose proof (uo_parts L LO s u H) as E. unfold recompose in E. rewrite F in E. cbn [opt_post] in E. eexists. split; [|reflexivity].
  rewrite <- E, <- app_assoc. reflexivity.
Qed.
Lemma slash_rooted w u : slash_file w -> L (slashes w) = Some u -> u_scheme u = Some (bs "file") -> has_auth_or_root u.
Proof.
  intros SF H F. destruct (scheme_file _ _ H F) as (r & E & R). apply slashes_file in E as (r' & E & E2). destruct (SF r' E) as (c & r2 & -> & C).
  assert (R1 : r = 47%N :: slashes r2). { rewrite E2. cbn [slashes map]. destruct C; subst c; reflexivity. }
  rewrite R1 in R. unfold has_auth_or_root. destruct (u_auth u) as [a|]; [left; discriminate|right]. cbn [opt_pre app] in R.
  destruct (u_path u) as [|x p]; auto. right. cbn [app] in R. injection R as <- _. eauto.
Qed.
Lemma before_last_some c s pre : before_last c s = Some pre -> exists b, s = pre ++ c :: b.
Proof.
  revert pre. induction s as [|x s IH]; intros pre H; cbn [before_last] in H; [discriminate|].
  destruct (before_last c s) as [p|]; [|].
  - inversion H; subst. destruct (IH p eq_refl) as (b & ->). exists b. auto.
  - destruct (x =? c)%N eqn:X; [|discriminate]. inversion H; subst. exists s. cbn [app]. f_equal. lia.
Qed.
Lemma before_last_in c s : In c s -> before_last c s <> None.
Proof.
  induction s as [|x s IH]; intros I; [contradiction|]. cbn [before_last]. destruct (before_last c s); [discriminate|].
  destruct I as [-> |I]; [rewrite N.eqb_refl; discriminate|]. exfalso. apply IH; auto.
Qed.
Lemma create_plain s : ~ In 92%N s -> create_uri L s = match L s with Some _ => Some s | None => None end.
Proof. intros N. unfold create_uri. rewrite (slashes_id (fun _ _ => Ok None) uri s N). reflexivity. Qed.

Lemma clean_total w : slash_file w -> exists tg, validate_and_clean_uri L uri w = Ok tg /\
  forall x, tg = Some x -> (exists u, L x = Some u) /\ ~ In 92%N x.
Proof.
  intros SF. unfold validate_and_clean_uri. unfold create_uri at 1. fold (slashes w). pose proof (slashes_no w) as N0.
  destruct (L (slashes w)) as [p0|] eqn:L0; [|exists None; split; auto; discriminate]. set (s0 := slashes w) in *. rewrite L0. cbn [unwrap bind].
  assert (R0 : is_file p0 = true -> has_auth_or_root p0).
  { intros F. eapply slash_rooted; eauto. unfold is_file in F. destruct (u_scheme p0) as [x|]; [|discriminate]. apply beq_eq in F. congruence. }
  assert (S1 : exists s1 p1, (if is_file p0 && is_some (u_query p0) then do pre <- unwrap (before_last 63 s0); unwrap (create_uri L pre) else Ok s0) = Ok s1 /\
            L s1 = Some p1 /\ ~ In 92%N s1 /\ same_front p1 p0).
  { destruct (is_file p0 && is_some (u_query p0)) eqn:Q; [|exists s0, p0; repeat split; auto].
    apply andb_prop in Q as [_ Q]. destruct (u_query p0) as [q|] eqn:UQ; [|discriminate].
    assert (I : In 63%N s0).
    { rewrite <- (uo_parts L LO _ _ L0). unfold recompose. rewrite UQ. apply in_or_app. right. apply in_or_app. right. apply in_or_app. right.
      apply in_or_app. left. left. reflexivity. }
    apply before_last_in in I. destruct (before_last 63 s0) as [pre|] eqn:B; [|congruence]. cbn [unwrap bind].
    apply before_last_some in B as (b & B). rewrite B in L0. destruct (uc_query L LC pre b p0 L0) as (p1 & P1 & SF1).
    assert (NP : ~ In 92%N pre). { intros I2. apply N0. rewrite B. apply in_or_app. auto. }
    rewrite create_plain, P1 by auto. cbn [unwrap]. exists pre, p1. auto. }
  destruct S1 as (s1 & p1 & -> & L1 & N1 & (F1 & F2 & F3)). cbn [bind]. rewrite L1. cbn [unwrap bind].
  destruct (is_file p1 && is_some (u_frag p1) && _) eqn:C.
  - assert (F : is_file p1 = true) by (destruct (is_file p1); [auto|discriminate]).
    assert (R : has_auth_or_root p1). { unfold has_auth_or_root. rewrite F2, F3. apply R0. unfold is_file in *. rewrite F1 in F. auto. }
    pose proof (uc_file L LC s1 p1 L1 R) as X. set (s2 := bs "file://" ++ _) in *. destruct (L s2) as [p2|] eqn:L2; [|congruence]. cbn [unwrap bind].
    exists (Some s2). split; auto. intros x E. inversion E; subst x. split; [eauto|]. intros I. unfold s2 in I.
    apply in_app_or in I as [I|I]; [repeat (destruct I as [I|I]; [discriminate|]); contradiction|]. apply N1. rewrite <- (uo_parts L LO _ _ L1). unfold recompose.
    apply in_or_app. right. apply in_app_or in I as [I|I]; [|apply in_or_app; right; apply in_or_app; auto].
    destruct (u_auth p1); [|contradiction]. apply in_or_app. left. cbn [opt_pre]. apply in_or_app. auto.
  - rewrite create_plain, L1 by auto. cbn [unwrap bind]. exists (Some s1). split; auto. intros x E. inversion E; subst x. eauto.
Qed.
End Clean.

(** ** Finding links *)
Section Find.
Variables (U : unicode) (L : uri_lib) (resolve : str -> str -> res (option str)) (uri : str) (d : textdoc) (cs : bool).
Hypothesis HD : textdoc_ok d.
Hypothesis LO : uri_ok L.
Hypothesis LC : uri_closed L.
Let t := d_text d.
Let HU : Utf8 t := do_utf8 d HD.
Notation find := (find_document_links U L resolve uri d cs).
Notation path_value := (path_value U d cs).
Notation base_tag := (base_tag U d cs).
Variable l : list token.
Hypothesis HT : fold_tokens U t cs = Ok l.
(** No attribute value is a single quote. *)
Hypothesis NQ : forall k, In k l -> tk_type k = AttributeValue -> ~ lone_quote (tk_text t k).
(** In the document's own address and in the links, [file:] is followed by a slash. *)
Hypothesis FU : slash_file uri.
Hypothesis FV : forall l1 k l2 v w, l = l1 ++ k :: l2 -> path_value l1 k v -> trimmed v w -> slash_file w.
(** The bases the resolver can work with. The address of the document is one; so is what a link
    behind a [base] tag resolves to. *)
Variable base_ok : str -> Prop.
Hypothesis RB : forall v b, base_ok b -> exists r, resolve v b = Ok r /\ forall x, r = Some x -> slash_file v -> slash_file x.
Hypothesis BU : base_ok uri.
Hypothesis BB : forall l1 k l2 v, l = l1 ++ k :: l2 -> path_value l1 k v -> Exists base_tag l1 ->
  match v with [] => base_ok [] | _ => forall r, resolve v uri = Ok r -> base_ok match r with Some x => x | None => v end end.

Lemma stripped_ok k : In k l -> tk_type k = AttributeValue -> exists v, normalize_ref (tk_text t k) = Ok v /\ stripped (tk_text t k) v.
Proof.
  intros I T. pose proof (NQ k I T) as N1. destruct (normalize_cases (tk_text t k)) as [(q & w & Q & E & R)|[(q & Q & E & R)|(N2 & N3 & R)]].
  - exists w. split; auto. left. exists q. auto.
  - exfalso. apply N1. exists q. auto.
  - exists (tk_text t k). split; auto. right. auto.
Qed.
Definition linked (k : link) : Prop := forall x, lk_target k = Some x -> (exists u, L x = Some u) /\ ~ In 92%N x.
Record AI (done : list token) (s : lstate) : Prop := {
  ai_li : LI U L resolve uri d cs done s;
  ai_base : l_in_base s = true -> Exists base_tag done;
  ai_some : forall b, l_base s = Some b -> base_ok b;
  ai_links : Forall linked (l_links s)
}.

Lemma http_slash w : slash_file ((if is_prefix (bs "https://") uri then bs "https" else bs "http") ++ bs ":" ++ w).
Proof. intros r E. destruct (is_prefix (bs "https://") uri); discriminate E. Qed.
Lemma anchor_slash w : slash_file (uri ++ bs "#" ++ w).
Proof.
  intros r E. assert (X : forall p u, ~ In 35%N p -> u ++ bs "#" ++ w = p ++ r -> exists r', u = p ++ r' /\ r = r' ++ bs "#" ++ w).
  { induction p as [|c p IH]; intros u NI E2; [exists u; auto|]. destruct u as [|c' u]; cbn [app] in E2.
    - injection E2 as E1 _. exfalso. apply NI. left. auto.
    - injection E2 as -> E2. destruct (IH u) as (r' & -> & ->); auto. { intros I. apply NI. right. auto. } exists r'. auto. }
  apply X in E as (r' & E & ->); [|intros [I|[I|[I|[I|[I|[]]]]]]; discriminate].
  destruct (FU r' E) as (c & r2 & -> & C). exists c, (r2 ++ bs "#" ++ w). auto.
Qed.
Lemma create_total l1 k l2 base : l = l1 ++ k :: l2 -> tok_bd t k -> tk_type k = AttributeValue -> (forall v, stripped (tk_text t k) v -> path_value l1 k v) ->
  base_ok (match base with Some b => b | None => uri end) ->
  exists lk, create_link U L resolve uri d (tk_text t k) (tk_off k) (tk_end k) base = Ok lk /\ forall x, lk = Some x -> linked x.
Proof.
  intros E HB T PV BO. assert (IK : In k l) by (rewrite E; apply in_or_app; right; left; auto).
  destruct (stripped_ok k IK T) as (v & NR & ST). unfold create_link. rewrite NR. cbn [bind].
  destruct (negb (validate_ref U v)); [exists None; split; auto; discriminate|].
  assert (SP : exists so eo, (if length v <? length (tk_text t k) then do e <- usub (tk_end k) 1; Ok (tk_off k + 1, e) else Ok (tk_off k, tk_end k)) = Ok (so, eo)).
  { destruct (length v <? _) eqn:LV; [|eauto]. unfold usub. replace (1 <=? tk_end k) with true; [cbn [bind]; eauto|].
    destruct HB as (B1 & B2 & B3); [right; right; right; auto|]. unfold tk_text, sub in LV. rewrite firstn_length in LV. lia. }
  destruct SP as (so & eo & ->). cbn [bind].
  destruct (span_exists d k v ST) as (a & b & VS). assert (SX : Bd t a /\ Bd t b /\ a <= b /\ sub t a b = v /\ tk_off k <= a /\ b <= tk_end k) by (eapply span_facts; eauto).
  destruct SX as (BA & BBo & AB & SB & _ & _).
  assert (UV : Utf8 v) by (rewrite <- SB; apply Bd_sub; auto).
  pose proof (trim_start_trimmed v UV) as TR. pose proof (FV l1 k l2 v (trim_start v) E (PV v ST) TR) as SF.
  assert (W : exists w, get_workspace_url U resolve uri v base = Ok w /\ forall x, w = Some x -> slash_file x).
  { unfold get_workspace_url. destruct (reg_javascript v); [exists None; split; auto; discriminate|].
    destruct (reg_schema U (trim_start v)).
    - destruct (_ || _ || _); [|exists None; split; auto; discriminate]. eexists. split; [reflexivity|]. intros x X. inversion X; subst. auto.
    - destruct (is_prefix (bs "#") (trim_start v)) eqn:P1.
      + eexists. split; [reflexivity|]. intros x X. apply Some_inj in X. subst x. destruct (trim_start v) as [|c w]; [discriminate|].
        change ((35 =? c)%N && true = true) in P1. assert (c = 35%N) as -> by lia. apply (anchor_slash w).
      + destruct (is_prefix (bs "//") (trim_start v)).
        * eexists. split; [reflexivity|]. intros x X. apply Some_inj in X. subst x. apply http_slash.
        * destruct (RB (trim_start v) _ BO) as (r & -> & F). exists r. split; auto. }
  destruct W as (w & -> & WS). cbn [bind]. destruct w as [w|]; [|exists None; split; auto; discriminate].
  destruct (clean_total L uri LO LC w (WS w eq_refl)) as (tg & -> & G). cbn [bind]. eexists. split; [reflexivity|].
  intros x X. inversion X; subst x. exact G.
Qed.

Lemma step_total l1 k l2 s : l = l1 ++ k :: l2 -> tok_bd t k -> (tk_type k = AttributeValue -> exists ka, value_name l1 ka) -> AI l1 s ->
  exists s', tlink U L resolve uri d cs k s = Ok s' /\ AI (l1 ++ [k]) s'.
Proof.
  intros E HB VN [I1 I2 I3 I4]. assert (IK : In k l) by (rewrite E; apply in_or_app; right; left; auto).
  assert (MORE : Exists base_tag l1 -> Exists base_tag (l1 ++ [k])) by (intros X; apply Exists_app; auto).
  enough (S : exists s', tlink U L resolve uri d cs k s = Ok s' /\ (l_in_base s' = true -> Exists base_tag (l1 ++ [k])) /\
            (forall b, l_base s' = Some b -> base_ok b) /\ Forall linked (l_links s')).
  { destruct S as (s' & S1 & S2 & S3 & S4). exists s'. split; auto. split; auto. eapply LI_step; eauto. }
  unfold tlink. fold t. destruct (tk_type k) eqn:T; try (exists s; auto; fail).
  - eexists. split; [reflexivity|]. cbn [l_in_base l_base l_links]. split; auto. intros B. apply orb_prop in B as [B|B]; auto.
    apply Exists_app. right. constructor. split; auto. apply beq_eq in B. exact B.
  - eexists. split; [reflexivity|]. cbn [l_in_base l_base l_links]. auto.
  - destruct (l_tag s) as [tg|] eqn:LT; [|exists s; auto]. destruct (l_attr s) as [at'|] eqn:LA; [|exists s; auto].
    destruct (VN eq_refl) as (ka & KA). pose proof (li_attr _ _ _ _ _ _ _ _ I1 ka KA) as LA2. rewrite LA in LA2. apply Some_inj in LA2.
    pose proof (li_tag _ _ _ _ _ _ _ _ I1) as LT2. rewrite LT in LT2. destruct LT2 as (kt & KT & ->).
    destruct (is_path_attribute (tk_name U d cs kt) at') eqn:PA.
    + assert (PV : forall v, stripped (tk_text t k) v -> path_value l1 k v).
      { intros v ST. split; auto. split; auto. exists kt, ka. split; auto. split; auto. rewrite <- LA2. auto. }
      destruct (l_in_base s) eqn:IB.
      * assert (X : exists b, (match l_base s with
                       | Some b => Ok (Some b)
                       | None => do b <- normalize_ref (tk_text t k);
                           match b with
                           | [] => Ok (Some [])
                           | _ => do r <- resolve b uri; Ok (Some match r with Some x => x | None => b end)
                           end
                       end) = Ok (Some b) /\ base_ok b).
        { destruct (l_base s) as [b|]; [exists b; auto|]. destruct (stripped_ok k IK T) as (v & -> & ST). cbn [bind].
          pose proof (BB l1 k l2 v E (PV v ST) (I2 eq_refl)) as BV. destruct v as [|c v]; [exists []; auto|].
          destruct (RB (c :: v) uri BU) as (r & R & _). specialize (BV r R). rewrite R. cbn [bind]. eauto. }
        destruct X as (b & -> & BO). cbn [bind]. eexists. split; [reflexivity|]. cbn [l_in_base l_base l_links]. split; [discriminate|].
        split; auto. intros b' X. inversion X; subst. auto.
      * assert (BO : base_ok match l_base s with Some b => b | None => uri end) by (destruct (l_base s); auto).
        destruct (create_total l1 k l2 (l_base s) E HB T PV BO) as (lk & -> & LK). cbn [bind]. eexists. split; [reflexivity|].
        cbn [l_in_base l_base l_links]. split; [discriminate|]. split; auto. apply Forall_app. split; auto. destruct lk; auto.
    + destruct (beq at' (bs "id")); [|exists s; auto]. destruct (stripped_ok k IK T) as (v & -> & _). cbn [bind].
      eexists. split; [reflexivity|]. cbn [l_in_base l_base l_links]. auto.
Qed.
Lemma fold_total l2 : forall l1 s, l = l1 ++ l2 -> Forall (tok_bd t) l2 ->
  (forall m1 k m2, l = m1 ++ k :: m2 -> tk_type k = AttributeValue -> exists ka, value_name m1 ka) -> AI l1 s ->
  exists s', link_fold U L resolve uri d cs l2 s = Ok s' /\ AI l s'.
Proof.
  induction l2 as [|k l2 IH]; intros l1 s E F VN A.
  - exists s. split; auto. rewrite app_nil_r in E. subst l1. auto.
  - inversion F as [|k0 l0 H1 H2]; subst k0 l0. destruct (step_total l1 k l2 s E H1 (VN l1 k l2 E) A) as (s1 & S1 & A1). unfold link_fold. cbn [foldm]. rewrite S1. cbn [bind].
    apply (IH (l1 ++ [k]) s1); auto. rewrite <- app_assoc. auto.
Qed.

Theorem C61_answers : exists ls, find = Ok ls.
Proof.
  destruct (fold_tokens_value_name U d cs HD l HT) as [FB VN].
  destruct (fold_total l [] lstate0 eq_refl FB VN) as (s & S & A).
  { split; [apply LI_start|discriminate|discriminate|constructor]. }
  assert (S' : link_loop U L resolve uri d cs (scan_fuel t) (scanner_new 0 WithinContent) lstate0 = Ok s).
  { rewrite <- S. unfold fold_tokens in HT. apply bind_ok in HT as ([l' f] & T & E). apply Ok_inj in E. subst l'.
    apply (loop_tokens U t cs HU _ (link_step U L resolve uri d cs) (tlink U L resolve uri d cs)) with (f := f); auto.
    - intros sc x. apply link_step_tok.
    - intros [|fuel] sc x; reflexivity.
    - left. apply (good_start d HD). }
  unfold find_document_links. fold t. rewrite S'. cbn [bind]. clear S S'.
  pose proof (ai_links _ _ A) as AL. clear A. induction AL as [|k r K _ (r' & IH)]; cbn [local_targets]; [eauto|].
  assert (X : exists k', local_target L uri d (l_ids s) k = Ok k').
  { unfold local_target. destruct (lk_target k) as [tg|] eqn:TG; [|eauto]. destruct (is_prefix (uri ++ bs "#") tg) eqn:P; [|eauto].
    destruct (assoc _ _) as [o|]; [|eauto]. destruct (K tg TG) as ((u & LU) & N1).
    assert (E : exists f, tg = uri ++ 35%N :: f).
    { clear -P. revert tg P. induction uri as [|c w IH]; intros tg P.
      - destruct tg as [|c tg]; [discriminate|]. change ((35 =? c)%N && true = true) in P. exists tg. cbn [app]. f_equal. lia.
      - destruct tg as [|c' tg]; [discriminate|]. cbn [app is_prefix] in P. apply andb_prop in P as [P1 P2]. destruct (IH tg P2) as (f & ->).
        exists f. cbn [app]. f_equal. lia. }
    destruct E as (f & ->). pose proof (uc_place L LC uri f (line (position_at d o) + 1) (character (position_at d o) + 1) u LU) as PL.
    rewrite <- app_assoc. change (bs "#" ++ ?x) with (35%N :: x). rewrite create_plain; auto.
    - match goal with |- context [L ?x] => destruct (L x) eqn:LX; [cbn [unwrap bind]; eauto|exfalso; apply PL; reflexivity] end.
    - intros I. apply in_app_or in I as [I|[I|I]]; [|discriminate|].
      + apply N1. apply in_or_app. auto.
      + apply in_app_or in I as [I|I]; [eapply digits_no_slash; eauto|]. apply in_app_or in I as [I|I]; [destruct I as [I|[]]; discriminate|eapply digits_no_slash; eauto]. }
  destruct X as (k' & ->). cbn [bind]. rewrite IH. cbn [bind]. eauto.
Qed.
End Find.
Print Assumptions C61_answers.

(** ** With the crate's own context *)
(** A base the default context can resolve against: a URI with a scheme. *)
Definition with_scheme (L : uri_lib) (b : str) : Prop := exists p, L b = Some p /\ u_scheme p <> None.
(** What is asked of the document: no attribute value is a single quote; a link that starts with
    [file:] goes on with a slash; a link behind a [base] tag, which may become the base of the
    others, resolves to a URI with a scheme. *)
Definition sound_links (U : unicode) (L : uri_lib) (uri : str) (d : textdoc) (cs : bool) : Prop :=
  forall l, fold_tokens U (d_text d) cs = Ok l ->
    (forall k, In k l -> tk_type k = AttributeValue -> ~ lone_quote (tk_text (d_text d) k)) /\
    (forall l1 k l2 v w, l = l1 ++ k :: l2 -> path_value U d cs l1 k v -> trimmed v w -> slash_file w) /\
    (forall l1 k l2 v, l = l1 ++ k :: l2 -> path_value U d cs l1 k v -> Exists (base_tag U d cs) l1 ->
       v <> [] /\ exists x, resolve_reference L v uri = Ok (Some x) /\ with_scheme L x).
Lemma default_slash L v b : uri_ok L -> with_scheme L b ->
  exists r, resolve_reference L v b = Ok r /\ forall x, r = Some x -> slash_file v -> slash_file x.
Proof.
  intros LO (p & LB & SB). unfold resolve_reference. destruct (L v) as [u|]; [|exists None; split; auto; discriminate]. rewrite LB.
  destruct (u_scheme u); [exists (Some v); split; auto; intros x X; apply Some_inj in X; subst x; auto|].
  destruct (u_scheme p) as [sch|] eqn:SP; [|congruence]. eexists. split; [reflexivity|]. intros x X _. apply Some_inj in X. subst x. intros r E.
  destruct (uo_scheme L LO b p sch LB SP) as (N1 & _). unfold has in N1. change (bs "://") with (58%N :: bs "//") in E.
  change (bs "file:" ++ r) with (bs "file" ++ 58%N :: r) in E. cbn [app] in E.
  change (bs "file" ++ 58%N :: r) with (bs "file" ++ 58%N :: r) in E.
  apply cut_at in E as (a' & E1 & E2); auto. destruct a' as [|c a'].
  - cbn [app] in E2. injection E2 as E2. rewrite <- E2. exists 47%N. eexists. split; [reflexivity|auto].
  - cbn [app] in E2. injection E2 as EC E2. exfalso.
    assert (I : In 58%N (bs "file")). { rewrite E1. apply in_or_app. right. left. congruence. }
    destruct I as [I|[I|[I|[I|[]]]]]; discriminate.
Qed.
Theorem C61_links : forall U L uri d cs, textdoc_ok d -> clean (d_text d) -> uri_ok L -> uri_closed L ->
  with_scheme L uri -> slash_file uri -> sound_links U L uri d cs ->
  exists ls, find_document_links U L (resolve_reference L) uri d cs = Ok ls.
Proof.
  intros U L uri d cs HD HC LO LC WS SF SL.
  assert (T : exists l, fold_tokens U (d_text d) cs = Ok l).
  { unfold fold_tokens. destruct (clean_tokens U (d_text d) cs (do_utf8 d HD) HC (2 * length (d_text d) + 2) (scanner_new 0 WithinContent)) as ((l & f) & E).
    - intros _. right. right. reflexivity.
    - apply (start_measure d 0).
    - rewrite E. cbn [bind]. eauto. }
  destruct T as (l & T). destruct (SL l T) as (S1 & S2 & S3).
  eapply (C61_answers U L (resolve_reference L) uri d cs HD LO LC l T S1 SF S2 (with_scheme L)); auto.
  - intros v b B. apply default_slash; auto.
  - intros l1 k l2 v E PV EX. destruct (S3 l1 k l2 v E PV EX) as (NE & x & R & W). destruct v; [congruence|].
    intros r R2. rewrite R in R2. apply Ok_inj in R2. subst r. exact W.
Qed.
Print Assumptions C61_links.

(** *** A document that meets the hypotheses *)
(** Checked token by token: enough for documents without [base]. *)
Definition plain_value (t : str) (k : token) : bool :=
  match tk_type k with
  | AttributeValue => match normalize_ref (tk_text t k) with Ok v => negb (is_prefix (bs "file:") (trim_start v)) | _ => false end
  | _ => true
  end.
Lemma plain_sound U L uri d cs l : textdoc_ok d -> fold_tokens U (d_text d) cs = Ok l -> forallb (plain_value (d_text d)) l = true ->
  forallb (fun k => negb (token_eqb (tk_type k) StartTag && beq (tk_name U d cs k) (bs "base"))) l = true -> sound_links U L uri d cs.
Proof.
  intros HD T PV NB l' T'. rewrite T in T'. apply Ok_inj in T'. subst l'. rewrite forallb_forall in PV, NB. split; [|split].
  - intros k I TK LQ. specialize (PV k I). unfold plain_value in PV. rewrite TK in PV. apply C38_panics in LQ as (r & R). rewrite R in PV. discriminate.
  - intros l1 k l2 v w E (TK & ST & _) TR. assert (I : In k l) by (rewrite E; apply in_or_app; right; left; auto). specialize (PV k I).
    unfold plain_value in PV. rewrite TK in PV. destruct (normalize_ref (tk_text (d_text d) k)) as [v'| |] eqn:NR; try discriminate.
    apply C38_strip in NR as [ST' _]. rewrite (C38_unique _ _ _ ST' ST) in PV.
    assert (UV : Utf8 v). { destruct TR as (ws & rest & -> & _ & S & _). exists (ws ++ rest). auto. }
    rewrite (trimmed_unique v _ w (trim_start_trimmed v UV) TR) in PV. intros r ->. discriminate PV.
  - intros l1 k l2 v E _ EX. exfalso. apply Exists_exists in EX as (b & IB & B1 & B2).
    assert (I : In b l) by (rewrite E; apply in_or_app; auto). specialize (NB b I). rewrite B1, B2 in NB. discriminate.
Qed.
Definition answered_doc : textdoc := utf16_doc (bs "<p id=q><a href=""x.html"">e</a><A HREF=#q><a href='#z'><a href=""JavaScript:1""><img SRC=//k/l>").
Example C61_hypotheses : textdoc_ok answered_doc /\ clean (d_text answered_doc) /\ with_scheme rfc_uri link_uri /\ slash_file link_uri /\
  sound_links demo_unicode rfc_uri link_uri answered_doc false.
Proof.
  assert (HD : textdoc_ok answered_doc) by (apply C27_contract; exists (decode (d_text answered_doc)); vm_compute; auto).
  split; auto. split; [apply is_clean_spec; vm_compute; reflexivity|]. split; [eexists; split; [vm_compute; reflexivity|discriminate]|]. split; [discriminate|].
  eapply plain_sound; [auto|vm_compute; reflexivity|vm_compute; reflexivity|vm_compute; reflexivity].
Qed.
