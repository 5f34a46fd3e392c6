(** * The services that scan from an element: the rest of the text does not matter *)
From Verif Require Import SelectionRange Base Stream Scanner BaseFacts ScannerFacts ScanStep ScanProps ScanShape ScanResume
  ScanComplete ScanPanic ScanLocal Tree Parser ParseSpec ParseInv ParseOrder SelAttr NodeScan ScanCut BelowFacts TextDoc DataManager Entities
  TagServices Hover Completion MoveFacts PropEdits PropAnswers PropProposals.
From Coq Require Import ZifyBool ZifyNat ZifyN.

Section L.
Variables (U : unicode) (cs : bool) (b : nat) (d d' : textdoc).
Notation t := (d_text d').
Notation x := (sub t 0 b).
Hypothesis HD : textdoc_ok d.
Hypothesis HD' : textdoc_ok d'.
Hypothesis HB : Bd t b.
Hypothesis HT : d_text d = x.
Hypothesis HP : forall o, o <= b -> position_at d' o = position_at d o.
Let HU : Utf8 t := Bd_utf8 _ _ HB.
Let HX : Utf8 x := cut_utf8 t b HB.
Notation both := (both U t cs b).

Lemma low_len : length (d_text d) = b.
Proof. rewrite HT. apply cut_len; auto. Qed.
Lemma low_range i j : i <= b -> j <= b -> range_at d' i j = range_at d i j.
Proof. intros. unfold range_at. rewrite !HP by auto. reflexivity. Qed.
Lemma low_nth i : i < b -> nth_error (d_text d) i = nth_error t i.
Proof. intros. rewrite HT. apply cut_nth; auto. Qed.
Lemma low_get1 i : i < b -> get1 (d_text d) i = get1 t i.
Proof. intros. unfold get1. rewrite low_nth by auto. reflexivity. Qed.
Lemma low_bd i : i <= b -> is_boundary (d_text d) i = is_boundary t i.
Proof.
  intros L. destruct (Nat.eq_dec i b) as [->|N].
  - rewrite (Bd_boundary _ _ HB). unfold is_boundary. rewrite low_len, Nat.eqb_refl, orb_true_r. reflexivity.
  - unfold is_boundary. rewrite low_len, low_nth by lia. pose proof (cut_le t b HB) as Q.
    replace (i =? b) with false by lia. replace (i =? length t) with false by lia. reflexivity.
Qed.
Lemma low_Bd i : i <= b -> Bd t i -> Bd (d_text d) i.
Proof. intros L H. rewrite HT. apply cut_Bd; auto. Qed.
Lemma low_sub i j : j <= b -> sub (d_text d) i j = sub t i j.
Proof. intros L. rewrite HT. apply cut_sub; auto. Qed.
Lemma low_slice i j : j <= b -> slice (d_text d) i j = slice t i j.
Proof.
  intros L. unfold slice. destruct (i <=? j) eqn:Q; [|reflexivity]. rewrite low_len, !low_bd by lia. pose proof (cut_le t b HB).
  replace (j <=? b) with true by lia. replace (j <=? length t) with true by lia. cbn [andb]. destruct (_ && _); [|reflexivity].
  f_equal. exact (low_sub i j L).
Qed.
Lemma low_text s : pos s <= b -> token_text (d_text d) s = token_text t s.
Proof. intros L. unfold token_text. apply low_slice. auto. Qed.
Lemma low_scan e s : scan U (d_text d) e cs s = scan U x e cs s.
Proof. rewrite HT. reflexivity. Qed.
Lemma low_content i j : i <= b -> j <= b -> is_boundary t i = true -> is_boundary t j = true ->
  get_content d' (range_at d i j) = get_content d (range_at d i j).
Proof.
  intros L1 L2 B1 B2. pose proof (cut_le t b HB). unfold get_content, range_at. cbn [r_start r_end]. rewrite <- !HP by auto.
  rewrite !(do_inv _ HD') by (auto; lia). rewrite !HP by auto. rewrite !(do_inv _ HD) by (rewrite ?low_len, ?low_bd; auto). symmetry. apply low_slice. auto.
Qed.
Lemma low_start i j : i <= b -> is_boundary t i = true -> offset_at d (r_start (range_at d i j)) = i /\ offset_at d' (r_start (range_at d i j)) = i.
Proof.
  intros L1 B1. pose proof (cut_le t b HB). unfold range_at. cbn [r_start]. split.
  - apply (do_inv _ HD); rewrite ?low_len, ?low_bd; auto.
  - rewrite <- HP by auto. apply (do_inv _ HD'); auto; lia.
Qed.
Lemma low_fuel : b + 1 < scan_fuel (d_text d) /\ b + 1 < scan_fuel t.
Proof. pose proof (cut_le t b HB). unfold scan_fuel. rewrite low_len. lia. Qed.

(** ** The end *)
Lemma last_low e s : pos s = b -> scan U (d_text d) e cs s = Ok (finish s b EOS None b (st s)).
Proof. intros Q. rewrite scan_at_end; [rewrite Q; reflexivity|apply do_utf8; auto|rewrite low_len; lia]. Qed.
Lemma last_high e s : pos s = b -> st s = WithinContent -> exists r, scan U t e cs s = Ok r /\ tok_off r = b /\ (tok r = EOS \/ b < pos r).
Proof.
  intros Q W. destruct (content_safe t HU s) as (r & R). exists r.
  assert (S : scan U t e cs s = Ok r) by (rewrite scan_internal by auto; unfold internal_scan; rewrite W; exact R).
  split; auto. destruct (scan_progress U t e cs HU _ _ S) as (A & B). split; [lia|].
  destruct B as [(B & _)|[(_ & B & _)|(_ & _ & _ & _ & _ & B & _)]]; [auto|right; lia|congruence].
Qed.

(** ** Scanning for a token *)
Lemma hover_low ty o k s : o < b -> both k s -> pos s <= o -> forall f f', k < f -> k < f' ->
  exists s1, hover_scan U d cs f ty o s = Ok s1 /\ hover_scan U d' cs f' ty o s = Ok s1 /\ pos s1 <= b /\ tok_off s1 <= o /\
    is_boundary t (tok_off s1) = true /\ (is_boundary t (pos s1) = true).
Proof.
  intros LO H. induction H as [s P W|k s s2 P B S1 S2 O N PR H IH]; intros L f f' F F'; [lia|].
  destruct f as [|f]; [lia|]. destruct f' as [|f']; [lia|]. cbn [hover_scan]. rewrite low_scan, S1, S2. cbn [bind].
  apply token_eqb_neq in N. rewrite N. cbn [negb andb].
  destruct (_ || _) eqn:Q; [apply IH; try lia; destruct (pos s2 <? o) eqn:Q1; lia|].
  exists s2. repeat split; auto; [exact (both_le _ _ _ _ _ _ H)| | |].
  - destruct (scan_progress U t true cs HU _ _ (S1 true)) as (A & _). lia.
  - destruct (scan_progress U t true cs HU _ _ (S1 true)) as (A & _). rewrite A. apply Bd_boundary. auto.
  - apply Bd_boundary. exact (both_Bd _ _ _ _ HB _ _ H).
Qed.
Lemma hover_range_low ty a k o : o < b -> a <= o -> both k (scanner_new a WithinContent) ->
  exists r, hover_token_range U d cs ty a o = Ok r /\ hover_token_range U d' cs ty a o = Ok r /\
    forall y, r = Some y -> exists i j, y = range_at d i j /\ i <= o /\ j <= b /\ is_boundary t i = true /\ is_boundary t j = true.
Proof.
  intros LO LA H. pose proof (both_len _ _ _ _ _ _ H) as L. cbn [scanner_new pos] in L. destruct low_fuel as [F F'].
  destruct (hover_low ty o k _ LO H LA (scan_fuel (d_text d)) (scan_fuel t)) as (s1 & E1 & E2 & L1 & L2 & L3 & L4); [lia|lia|].
  unfold hover_token_range. rewrite E1, E2. cbn [bind]. rewrite low_range by lia. eexists. split; [reflexivity|]. split; [reflexivity|].
  intros y. destruct (_ && _); [|discriminate]. intros E. apply Some_inj in E. subst y. exists (tok_off s1), (pos s1). repeat split; auto.
Qed.
Lemma attr_low stop k s : stop < b -> both k s -> forall prev f f', k < f -> k < f' ->
  attr_before U d' cs f' stop s prev = attr_before U d cs f stop s prev.
Proof.
  intros LO H. induction H as [s P W|k s s2 P B S1 S2 O N PR H IH]; intros prev f f' F F'; destruct f as [|f]; try lia; destruct f' as [|f']; try lia; cbn [attr_before].
  - replace (pos s <=? stop) with false by lia. rewrite andb_false_r. reflexivity.
  - destruct (_ && _); [|reflexivity]. rewrite low_scan, S1, S2. cbn [bind]. rewrite low_text by (exact (both_le _ _ _ _ _ _ H)).
    destruct (token_eqb _ _); [|apply IH; lia]. apply bind_ext. intros y _. apply IH; lia.
Qed.
Lemma ends_low ty o k s : o <= b -> both k s -> forall f f', k + 1 < f -> k + 1 < f' ->
  ends_at_loop U d' cs f' ty o s = ends_at_loop U d cs f ty o s.
Proof.
  intros LO H. induction H as [s P W|k s s2 P B S1 S2 O N PR H IH]; intros f f' F F'; destruct f as [|f]; try lia; destruct f' as [|f']; try lia; cbn [ends_at_loop].
  - destruct (_ && _); [|reflexivity]. destruct (_ && _); [reflexivity|]. rewrite last_low by auto. destruct (last_high false s P W) as (r & -> & R1 & R2). cbn [bind].
    destruct f as [|f]; [lia|]. destruct f' as [|f']; [lia|]. cbn [ends_at_loop finish tok]. change (token_eqb EOS EOS) with true. cbn [negb andb].
    destruct R2 as [R2|R2]; [rewrite R2; reflexivity|]. replace (pos r <=? o) with false by lia. rewrite andb_false_r. reflexivity.
  - destruct (_ && _); [|reflexivity]. destruct (_ && _); [reflexivity|]. rewrite low_scan, S1, S2. cbn [bind]. apply IH; lia.
Qed.
Lemma assign_next e s s' : scan U t e cs s = Ok s' -> tok s' = DelimiterAssign -> st s' = BeforeAttributeValue.
Proof.
  intros S T. apply scan_outcome in S; auto. inversion S; subst; cbn [finish st tok] in *; try discriminate; auto.
  inversion H1; subst; cbn [finish st tok] in *; discriminate.
Qed.
Lemma quote_low o v k s : o < b -> both k s -> forall f f', k + 1 < f -> k + 1 < f' ->
  quote_loop U d' cs f' o v s = quote_loop U d cs f o v s.
Proof.
  intros LO H. induction H as [s P W|k s s2 P B S1 S2 O N PR H IH]; intros f f' F F'; destruct f as [|f]; try lia; destruct f' as [|f']; try lia; cbn [quote_loop].
  - replace (pos s <=? o) with false by lia. rewrite andb_false_r. reflexivity.
  - destruct (_ && _); [|reflexivity]. rewrite low_scan, S1, S2. cbn [bind]. destruct (_ && _); [|apply IH; lia].
    destruct (token_eqb (tok s2) DelimiterAssign) eqn:Q; [|reflexivity]. cbn [negb]. apply token_eqb_eq in Q. apply (assign_next false _ _ (S1 false)) in Q.
    assert (P2 : pos s2 < b).
    { pose proof (both_le _ _ _ _ _ _ H). destruct (Nat.eq_dec (pos s2) b) as [E|E]; [|lia]. rewrite (both_content _ _ _ _ _ _ H E) in Q. discriminate. }
    destruct (both_more _ _ _ _ _ _ H P2) as (s3 & k2 & _ & T1 & T2 & _). rewrite low_scan, T1, T2. reflexivity.
Qed.
End L.
