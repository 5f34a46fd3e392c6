(** * Scanning from an element of the beginning of a text: the rest of the text does not matter *)
From Verif Require Import Base Stream Scanner BaseFacts ScannerFacts ScanStep ScanProps ScanShape ScanResume
  ScanComplete ScanPanic ScanLocal Tree Parser ParseSpec ParseInv ParseOrder ParseEnd SelAttr NodeScan ScanCut.
From Coq Require Import ZifyBool ZifyNat ZifyN.

Lemma end_tags_opened t ts : (forall e, fst (fst (et_run t ts)) = Some e -> exists k, In k ts /\ tk_type k = EndTagOpen /\ tk_off k = e) /\
  forall e name q, In (e, name, q) (end_tags t ts) -> exists k, In k ts /\ tk_type k = EndTagOpen /\ tk_off k = e.
Proof.
  induction ts as [|k ts [IH1 IH2]] using rev_ind; [split; [discriminate|contradiction]|].
  unfold end_tags in *. rewrite et_run_snoc. destruct (et_run t ts) as [[o nm] acc]. cbn [fst snd] in *.
  assert (G : forall e, (exists j, In j ts /\ tk_type j = EndTagOpen /\ tk_off j = e) -> exists j, In j (ts ++ [k]) /\ tk_type j = EndTagOpen /\ tk_off j = e).
  { intros e (j & J & Q). exists j. split; auto. apply in_or_app. auto. }
  unfold et_step. destruct (tk_type k) eqn:T; cbn [fst snd]; try (split; eauto; fail).
  - split; eauto. intros e H. injection H as <-. exists k. split; [apply in_or_app; right; left; auto|auto].
  - destruct o as [e0|]; cbn [fst snd]; [|split; eauto; discriminate]. split; eauto. intros e name q I. apply in_app_or in I as [I|[I|[]]]; eauto.
    injection I as <- _ _. eauto.
Qed.

Section Both.
Variables (U : unicode) (t : str) (cs : bool) (b : nat).
Hypothesis HB : Bd t b.
Notation x := (sub t 0 b).
Let HU : Utf8 t := Bd_utf8 _ _ HB.
Let HX : Utf8 x := cut_utf8 t b HB.
Notation steps := (steps U t cs).

(** The scanner makes the same steps in both texts up to the end of the first. *)
Inductive both : nat -> scanner -> Prop :=
| both_last s : pos s = b -> st s = WithinContent -> both 0 s
| both_step k s s2 : pos s < b -> Bd t (pos s) -> (forall e, scan U t e cs s = Ok s2) -> (forall e, scan U x e cs s = Ok s2) ->
    outcome U t true cs s s2 -> tok s2 <> EOS -> pos s < pos s2 -> both k s2 -> both (S k) s.
Lemma both_len k s : both k s -> k + pos s <= b.
Proof. induction 1; lia. Qed.
Lemma both_le k s : both k s -> pos s <= b.
Proof. intros H. apply both_len in H. lia. Qed.
Lemma both_content k s : both k s -> pos s = b -> st s = WithinContent.
Proof. intros H Q. inversion H; subst; auto. lia. Qed.
Lemma both_Bd k s : both k s -> Bd t (pos s).
Proof. intros H. destruct H as [s P W|]; auto. rewrite P. auto. Qed.
Lemma both_more k s : both k s -> pos s < b -> exists s2 k2, k = S k2 /\ (forall e, scan U t e cs s = Ok s2) /\ (forall e, scan U x e cs s = Ok s2) /\
  outcome U t true cs s s2 /\ tok s2 <> EOS /\ pos s < pos s2 /\ both k2 s2.
Proof. intros H L. destruct H as [s P W|k s s2 P B S1 S2 O N PR H]; [lia|]. exists s2, k. repeat (split; auto). Qed.

Section To.
Variable z : scanner.
Hypothesis HZ : pos z = b.
Hypothesis HW : st z = WithinContent.
Hypothesis HC : tok z <> Script /\ tok z <> Styles.

Lemma both_scan sc y m s s2 : steps sc (y :: m) z -> st s = st sc -> pos s = pos sc -> st s2 = st y -> pos s2 = pos y -> tok s2 = tok y ->
  scan U t true cs s = Ok s2 ->
  pos s < b /\ Bd t (pos s) /\ (forall e, scan U t e cs s = Ok s2) /\ (forall e, scan U x e cs s = Ok s2) /\
  outcome U t true cs s s2 /\ tok s2 <> EOS /\ pos s < pos s2.
Proof.
  intros H E1 E2 E3 E4 E5 S. destruct (steps_kept U t cs b HB z HZ HW HC _ _ _ H) as [L K].
  assert (K' : kept b s s2) by (unfold kept in *; rewrite E1, E2, E4, E5; exact K).
  inversion H as [|? ? ? ? B S0 NE PR R]; subst. rewrite <- E2 in B, PR, L.
  assert (ST : forall e, scan U t e cs s = Ok s2) by (intros [|]; auto; apply scan_emit_all; auto; lia).
  repeat split; auto; try congruence; try lia.
  - intros e. apply scan_cut; auto.
  - apply scan_outcome; auto.
Qed.

Lemma steps_both m : forall y s, steps y m z -> sim t y s -> both (length m) s.
Proof.
  induction m as [|y2 m IH]; intros y s H M.
  - inversion H; subst. destruct M as (M1 & M2 & _). apply both_last; congruence.
  - assert (R : steps y2 m z) by (inversion H; auto). assert (S : scan U t true cs y = Ok y2) by (inversion H; auto).
    pose proof (sim_scan U t true cs HU _ _ M) as Q. rewrite S in Q. destruct (scan U t true cs s) as [s2| |] eqn:S2; try contradiction.
    destruct Q as [Q1 Q2]. assert (M1 := M). destruct M1 as (M1 & M2 & _). assert (Q3 := Q1). destruct Q3 as (Q3 & Q4 & _).
    assert (Q5 : tok s2 = tok y2) by (unfold token_of in Q2; congruence).
    destruct (both_scan y y2 m s s2 H) as (A & B & C & D & E & F & G); auto. cbn [length]. eapply both_step; eauto.
Qed.

(** From the first byte of a tag. *)
Lemma open_both sc y m : steps sc (y :: m) z -> tok y = StartTagOpen \/ tok y = EndTagOpen ->
  exists s1, both (S (length m)) (scanner_new (tok_off y) WithinContent) /\ (forall e, scan U t e cs (scanner_new (tok_off y) WithinContent) = Ok s1) /\
    (forall e, scan U x e cs (scanner_new (tok_off y) WithinContent) = Ok s1) /\ both (length m) s1 /\ tok s1 = tok y /\ tok_off s1 = tok_off y /\ pos s1 = pos y /\ tok_off y < b.
Proof.
  intros H T. assert (R : steps y m z) by (inversion H; auto). assert (S : scan U t true cs sc = Ok y) by (inversion H; auto).
  assert (B : Bd t (pos sc)) by (inversion H; auto). pose proof (scan_outcome _ _ _ _ HU _ _ S) as O.
  set (s0 := scanner_new (tok_off y) WithinContent).
  assert (Q : tok_off y = pos sc /\ ScanResume.in_start_tag (st y) = false /\
     exists s1, outcome U t true cs s0 s1 /\ st s1 = st y /\ pos s1 = pos y /\ tok s1 = tok y /\ tok_off s1 = tok_off y).
  { clear S R H. inversion O; subst y; cbn [finish tok] in T; try (destruct T; discriminate); try (inversion H0; subst; destruct T; discriminate).
    - split; [reflexivity|]. split; [reflexivity|]. eexists. split; [apply O_end_tag_open; auto; left; reflexivity|]. auto.
    - split; [reflexivity|]. split; [reflexivity|]. eexists. split; [apply O_start_tag_open; auto; left; reflexivity|]. auto.
    - exfalso. inversion H1; subst; cbn [finish tok] in *; destruct T; discriminate. }
  destruct Q as (Q1 & Q2 & s1 & O1 & E1 & E2 & E3 & E4). exists s1.
  assert (S1 : scan U t true cs s0 = Ok s1).
  { apply outcome_scan; auto; [left; cbn; rewrite Q1; auto|]. rewrite E3. destruct T as [->| ->]; discriminate. }
  assert (M : sim t y s1) by (split; [auto|split; [auto|rewrite Q2; discriminate]]).
  pose proof (steps_both _ _ _ R M) as BM.
  destruct (steps_kept U t cs b HB z HZ HW HC _ _ _ H) as [L K].
  assert (K' : kept b s0 s1).
  { destruct K as (K1 & K2 & _). split; [rewrite E2; auto|]. split; [rewrite E3, E2; exact K2|]. split; intros X; discriminate X. }
  inversion H as [|? ? ? ? B0 S0 NE PR R0]; subst.
  assert (P0 : pos s0 = pos sc) by exact Q1.
  assert (ST : forall e, scan U t e cs s0 = Ok s1) by (intros [|]; auto; apply scan_emit_all; auto; lia).
  assert (SX : forall e, scan U x e cs s0 = Ok s1) by (intros e; apply scan_cut; auto; [lia|rewrite P0; auto]).
  repeat split; auto; [|lia]. eapply both_step; eauto; try lia; [rewrite P0; auto|congruence].
Qed.
End To.
End Both.
