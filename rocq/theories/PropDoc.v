(** * C27: positions and offsets *)
From Verif Require Import Base BaseFacts TextDoc.
From Coq Require Import ZifyBool ZifyNat ZifyN.

Lemma pos_ltb_lt a b : pos_ltb a b = true <-> pos_lt a b.
Proof.
  unfold pos_ltb, pos_lt. rewrite orb_true_iff, andb_true_iff, !Nat.ltb_lt, Nat.eqb_eq. tauto.
Qed.
Lemma pos_lt_trans a b c : pos_lt a b -> pos_lt b c -> pos_lt a c.
Proof. unfold pos_lt. destruct a, b, c; cbn. lia. Qed.
Lemma pos_lt_irrefl a : ~ pos_lt a a.
Proof. unfold pos_lt. lia. Qed.
Lemma pos_le_trans a b c : pos_le a b -> pos_le b c -> pos_le a c.
Proof. unfold pos_le. intros [->|H] [->|H']; eauto using pos_lt_trans. Qed.
Lemma pos_le_refl a : pos_le a a.
Proof. left; auto. Qed.
Lemma utf16_pos c : 1 <= utf16_width c.
Proof. unfold utf16_width. destruct (c <? 65536)%N; lia. Qed.
Lemma next_pos_lt p c r : pos_lt p (next_pos p c r).
Proof. unfold next_pos, pos_lt. pose proof (utf16_pos c). destruct (ends_line c r); cbn; lia. Qed.

(** Walking to a boundary passes whole characters. *)
Fixpoint pos_after (cs1 cs2 : list N) (p : position) : position :=
  match cs1 with
  | [] => p
  | c :: r => pos_after r cs2 (next_pos p c (r ++ cs2))
  end.
Lemma pos_walk_after cs1 : forall cs2 p, forallb scalar cs1 = true -> forallb scalar cs2 = true ->
  pos_walk (cs1 ++ cs2) (length (encode cs1)) p = pos_after cs1 cs2 p.
Proof.
  induction cs1 as [|c cs1 IH]; intros cs2 p S1 S2; cbn [app pos_after].
  - destruct cs2 as [|c cs2]; cbn [pos_walk encode flat_map length]; auto.
    cbn [forallb] in S2. apply andb_true_iff in S2 as [S2 _]. apply encode1_nonempty in S2.
    replace (0 <? length (encode1 c)) with true by lia. auto.
  - cbn [forallb] in S1. apply andb_true_iff in S1 as [S0 S1].
    cbn [pos_walk]. rewrite encode_cons, app_length.
    replace (length (encode1 c) + length (encode cs1) <? length (encode1 c)) with false by lia.
    replace (length (encode1 c) + length (encode cs1) - length (encode1 c)) with (length (encode cs1)) by lia.
    apply IH; auto.
Qed.
Lemma pos_after_le cs1 : forall cs2 p, pos_le p (pos_after cs1 cs2 p).
Proof.
  induction cs1 as [|c cs1 IH]; intros cs2 p; cbn [pos_after]; [apply pos_le_refl|].
  eapply pos_le_trans; [|apply IH]. right. apply next_pos_lt.
Qed.
Lemma pos_after_lt c cs1 cs2 p : pos_lt p (pos_after (c :: cs1) cs2 p).
Proof.
  cbn [pos_after]. pose proof (next_pos_lt p c (cs1 ++ cs2)) as H.
  destruct (pos_after_le cs1 cs2 (next_pos p c (cs1 ++ cs2))) as [<-|Q]; auto.
  eapply pos_lt_trans; eauto.
Qed.
Lemma pos_after_app cs1 : forall cs2 cs3 p,
  pos_after (cs1 ++ cs2) cs3 p = pos_after cs2 cs3 (pos_after cs1 (cs2 ++ cs3) p).
Proof.
  induction cs1 as [|c cs1 IH]; intros cs2 cs3 p; cbn [app pos_after]; auto.
  rewrite IH, app_assoc. auto.
Qed.
Lemma off_walk_after cs1 : forall cs2 p acc,
  off_walk (cs1 ++ cs2) (pos_after cs1 cs2 p) p acc = acc + length (encode cs1).
Proof.
  induction cs1 as [|c cs1 IH]; intros cs2 p acc; cbn [app pos_after].
  - cbn. replace (acc + 0) with acc by lia. destruct cs2; cbn [off_walk]; auto.
    replace (pos_ltb p p) with false; auto. symmetry. apply not_true_iff_false. rewrite pos_ltb_lt. apply pos_lt_irrefl.
  - cbn [off_walk]. 
    replace (pos_ltb p (pos_after cs1 cs2 (next_pos p c (cs1 ++ cs2)))) with true.
    2: { symmetry. apply pos_ltb_lt. apply (pos_after_lt c cs1 cs2 p). }
    rewrite IH, encode_cons, app_length. lia.
Qed.
Lemma off_walk_bd q cs : forall pre p, forallb scalar pre = true -> forallb scalar cs = true ->
  Bd (encode (pre ++ cs)) (off_walk cs q p (length (encode pre))).
Proof.
  induction cs as [|c cs IH]; intros pre p S1 S2; cbn [off_walk].
  - exists pre, []. repeat split; auto; rewrite ?app_nil_r; auto.
  - cbn [forallb] in S2. apply andb_true_iff in S2 as [S0 S2]. destruct (pos_ltb p q).
    + replace (length (encode pre) + length (encode1 c)) with (length (encode (pre ++ [c]))).
      2: { rewrite encode_app, app_length. cbn. rewrite app_nil_r. auto. }
      replace (pre ++ c :: cs) with ((pre ++ [c]) ++ cs) by (rewrite <- app_assoc; auto).
      apply IH; auto. rewrite forallb_app, S1. cbn. rewrite S0. auto.
    + exists pre, (c :: cs). rewrite encode_app. repeat split; auto. cbn. rewrite S0. auto.
Qed.
Lemma pos_walk_clamp cs : forall o p, length (encode cs) <= o -> pos_walk cs o p = pos_walk cs (length (encode cs)) p.
Proof.
  induction cs as [|c cs IH]; intros o p L; cbn [pos_walk]; auto.
  rewrite encode_cons, app_length in *.
  replace (o <? length (encode1 c)) with false by lia.
  replace (length (encode1 c) + length (encode cs) <? length (encode1 c)) with false by lia.
  rewrite IH by lia. f_equal. lia.
Qed.

(** The concrete document meets the contract. *)
Theorem C27_positions : forall t, Utf8 t ->
  let d := utf16_doc t in
  (forall o, is_boundary t o = true -> o <= length t -> offset_at d (position_at d o) = o) /\
  (forall o o', is_boundary t o = true -> is_boundary t o' = true -> o < o' -> o' <= length t ->
     pos_lt (position_at d o) (position_at d o')) /\
  (forall p, is_boundary t (offset_at d p) = true /\ offset_at d p <= length t) /\
  (forall o, length t <= o -> position_at d o = position_at d (length t)).
Proof.
  intros t (cs & S & ->) d. assert (U : Utf8 (encode cs)) by (exists cs; auto).
  assert (B : forall o, is_boundary (encode cs) o = true -> o <= length (encode cs) ->
     exists c1 c2, cs = c1 ++ c2 /\ o = length (encode c1) /\ forallb scalar c1 = true /\ forallb scalar c2 = true).
  { intros o Bo L. apply boundary_Bd in Bo as (c1 & c2 & H1 & H2 & H3); auto.
    destruct H3 as [H3 H4]. exists c1, c2. repeat split; auto.
    rewrite <- encode_app in H3. apply (f_equal decode) in H3.
    rewrite !decode_encode in H3; auto. rewrite forallb_app, H1, H2. auto. }
  unfold d, utf16_doc. cbn [position_at offset_at]. rewrite decode_encode by auto. repeat split.
  - intros o Bo L. destruct (B o Bo L) as (c1 & c2 & -> & -> & S1 & S2).
    rewrite pos_walk_after, off_walk_after by auto. lia.
  - intros o o' Bo Bo' L L'. destruct (B o Bo) as (c1 & c2 & E & -> & S1 & S2); [lia|].
    destruct (B o' Bo' L') as (c3 & c4 & E' & -> & S3 & S4).
    assert (exists x c5, c3 = c1 ++ x :: c5) as (x & c5 & ->).
    { assert (Q : c1 ++ c2 = c3 ++ c4) by congruence. clear - Q L S1 S3 S4. revert c3 Q L S3.
      induction c1 as [|a c1 IH]; intros c3 Q L S3.
      - destruct c3 as [|x c3]; cbn in L; [lia|]. exists x, c3. auto.
      - destruct c3 as [|y c3]; [cbn [encode flat_map length] in L; lia|].
        cbn [app] in Q. inv Q. cbn [forallb] in S1, S3. apply andb_true_iff in S1 as [_ S1].
        apply andb_true_iff in S3 as [_ S3]. rewrite !encode_cons, !app_length in L.
        destruct (IH S1 c3 H1) as (x & c5 & ->); auto; [lia|]. exists x, c5. auto. }
    rewrite E' in E |- *. rewrite (pos_walk_after (c1 ++ x :: c5)) by auto.
    rewrite <- app_assoc. rewrite pos_walk_after, pos_after_app; auto.
    + apply pos_after_lt.
    + rewrite forallb_app in S3. apply andb_true_iff in S3 as [_ S3]. rewrite forallb_app, S3. auto.
  - apply Bd_boundary. apply (off_walk_bd p cs [] (mkPos 0 0)); auto.
  - apply Bd_le. apply (off_walk_bd p cs [] (mkPos 0 0)); auto.
  - intros o L. apply pos_walk_clamp. auto.
Qed.
Print Assumptions C27_positions.

Theorem C27_contract : forall t, Utf8 t -> textdoc_ok (utf16_doc t).
Proof.
  intros t H. destruct (C27_positions t H) as (A & B & C & D). constructor; cbn [d_text utf16_doc]; auto.
  intros p. destruct (C p). auto.
Qed.
Print Assumptions C27_contract.
(** Two lines, one with a character outside the BMP (4 bytes, 2 columns). *)
Example C27_demo : map (position_at (utf16_doc (bs "a😀b" ++ [13; 10; 99]%N))) [0; 1; 5; 6; 7; 8; 9] =
  [mkPos 0 0; mkPos 0 1; mkPos 0 3; mkPos 0 4; mkPos 0 5; mkPos 1 0; mkPos 1 1].
Proof. vm_compute. reflexivity. Qed.
