(** * Hover (C44, C45) *)
From Verif Require Import Base BaseFacts Stream Scanner ScannerFacts ScanStep ScanProps ScanShape ScanResume ScanPanic Tree
  Parser ParseSpec ParseInv ParseOrder PropParse TreeFacts PropTree TextDoc PropDoc PropTags SelectionRange ScanComplete
  ScanLocal SelAttr TokenLoop NodeScan DataManager Entities Hover.
From Coq Require Import ZifyBool ZifyNat ZifyN Sorted.

Lemma prefix_nth w t a : is_prefix w (skipn a t) = true -> forall i, i < length w -> nth_error t (a + i) = nth_error w i.
Proof.
  intros H i L. apply is_prefix_spec in H as (r & H).
  rewrite <- skipn_nth_error, H. apply nth_error_app1. auto.
Qed.

(** The cursor [o] touches the token. *)
Definition touch (ty : token_type) (o : nat) (k : token) : Prop := tk_type k = ty /\ tk_off k <= o <= tk_end k.
Definition touchb (ty : token_type) (o : nat) (k : token) : bool :=
  token_eqb (tk_type k) ty && (tk_off k <=? o) && (o <=? tk_end k).
Lemma touchb_spec ty o k : touchb ty o k = true <-> touch ty o k.
Proof.
  unfold touchb, touch. rewrite !andb_true_iff, token_eqb_eq, !Nat.leb_le. tauto.
Qed.

Section Scan.
Variables (U : unicode) (d : textdoc) (cs : bool).
Notation t := (d_text d).
Hypothesis HU : Utf8 t.

Lemma hover_scan_find ty o : ty <> EOS -> forall m sc z fuel, runs U t false cs sc m z -> pos sc <= o ->
  Exists (fun x => o < pos x) m -> length m <= fuel ->
  exists r, hover_scan U d cs fuel ty o sc = Ok r /\
    (if token_eqb (tok r) ty && (o <=? pos r) then Some (tok_off r, pos r) else None) =
    option_map (fun k => (tk_off k, tk_end k)) (find (touchb ty o) (map token_of m)).
Proof.
  intros NT. induction m as [|x m IH]; intros sc z fuel R L E F; [inversion E|].
  apply runs_inv in R as (S & NE & R). destruct fuel as [|fuel]; [cbn in F; lia|]. cbn [length] in F.
  cbn [hover_scan]. rewrite S. cbn [bind]. apply token_eqb_neq in NE. rewrite NE. cbn [negb andb].
  apply token_eqb_neq in NE.
  destruct (step_kind _ _ _ _ _ HU S NE) as (A & B & C & _).
  cbn [map find]. unfold touchb at 1. cbn [token_of tk_type tk_off tk_end].
  replace (tok_off x <=? o) with true by lia. rewrite andb_true_r.
  destruct (pos x <? o) eqn:E1; cbn [orb].
  - replace (o <=? pos x) with false by lia. rewrite andb_false_r.
    apply (IH x z); auto; [lia| |lia]. inversion E; subst; auto. lia.
  - destruct (token_eqb (tok x) ty) eqn:ET; cbn [negb andb].
    + rewrite andb_false_r. exists x. split; auto. rewrite ET. replace (o <=? pos x) with true by lia. reflexivity.
    + rewrite andb_true_r. destruct (pos x =? o) eqn:E2.
      * apply (IH x z); auto; [lia| |lia]. inversion E; subst; auto. lia.
      * exists x. split; auto. rewrite ET. cbn [andb].
        replace (find (touchb ty o) (map token_of m)) with (@None token); auto. symmetry.
        pose proof (runs_after U t cs HU _ _ _ R) as RA. clear - RA E1 E2.
        induction m as [|y m IH]; auto. inversion RA; subst. cbn [map find]. unfold touchb at 1. cbn [token_of tk_type tk_off tk_end].
        replace (tok_off y <=? o) with false by lia. rewrite andb_false_r. auto.
Qed.

Lemma hover_scan_sound ty o : forall fuel sc r, hover_scan U d cs fuel ty o sc = Ok r -> pos sc <= o ->
  tok r = ty -> ty <> EOS ->
  exists m, runs U t false cs sc (m ++ [r]) r /\ tok_off r <= o.
Proof.
  induction fuel as [|fuel IH]; intros sc r H L T NT; [discriminate|].
  cbn [hover_scan] in H. apply bind_ok in H as (x & S & H).
  destruct (token_eqb (tok x) EOS) eqn:NE; cbn [negb andb] in H.
  { apply Ok_inj in H. subst x. apply token_eqb_eq in NE. congruence. }
  apply token_eqb_neq in NE. destruct (step_kind _ _ _ _ _ HU S NE) as (A & B & C & _).
  destruct (_ || _) eqn:E in H.
  - destruct (IH x r H) as (m & R & Q); auto; [lia|]. exists (x :: m). split; auto. cbn [app]. constructor; auto.
  - apply Ok_inj in H. subst r. exists []. split; [|lia]. cbn [app]. constructor; auto. constructor.
Qed.

(** ** Facts about the tokens scanned *)
Lemma runs_bd m : forall sc z, runs U t false cs sc m z -> Good t sc -> Forall (tok_bd t) (map token_of m).
Proof.
  induction m as [|x m IH]; intros sc z R G; [constructor|]. apply runs_inv in R as (S & NE & R).
  cbn [map]. constructor; [eapply scan_tok_bd; eauto|].
  destruct (good_step U t false cs HU _ _ G (scan_outcome _ _ _ _ HU _ _ S)) as [G'|G']; [eapply IH; eauto|].
  destruct m as [|y m]; [constructor|]. apply runs_inv in R as (S' & _).
  rewrite (after_bad_panics U t false cs HU _ G') in S'. discriminate.
Qed.
Lemma runs_value_name m : forall done sc z, runs U t false cs sc m z ->
  (st sc = AfterAttributeName \/ st sc = BeforeAttributeValue -> exists ka, value_name done ka) ->
  forall m1 k m2, m = m1 ++ k :: m2 -> tok k = AttributeValue -> exists ka, value_name (done ++ map token_of m1) ka.
Proof.
  induction m as [|sc' m IH]; intros done sc z R HA m1 k m2 E TK; [destruct m1; discriminate|].
  apply runs_inv in R as (S & NE & R). destruct (step_kind _ _ _ _ _ HU S NE) as (_ & _ & _ & K).
  destruct m1 as [|k1 m1]; cbn [app] in E; injection E as -> E.
  - cbn [map]. rewrite app_nil_r. destruct K as [?|? K|[?|?]|? ?]; try congruence. apply HA; auto.
  - cbn [map]. replace (done ++ token_of k1 :: map token_of m1) with ((done ++ [token_of k1]) ++ map token_of m1)
      by (rewrite <- app_assoc; auto).
    eapply IH; eauto. intros ST. destruct K as [K1 K2 K3 K4|K1 K2 K3 K4|K1 K2 K3|K1 K2 K3 K4].
    + exists (token_of k1). exists done, []. auto.
    + rewrite K4 in ST. destruct ST; discriminate.
    + destruct HA as (ka & l1 & l2 & -> & X & F); auto. exists ka, l1, (l2 ++ [token_of k1]).
      rewrite <- app_assoc. split; auto. split; auto. apply Forall_app; auto.
    + tauto.
Qed.
(** Tokens of one of these types are not adjacent. *)
Definition solitary (ty : token_type) : Prop := ty = StartTag \/ ty = AttributeName \/ ty = AttributeValue.
Lemma start_tag_step y y' : scan U t false cs y = Ok y' -> tok y' = StartTag -> st y = AfterOpeningStartTag /\ st y' = WithinTag.
Proof.
  intros S T. apply scan_outcome in S; auto. inversion S; subst; cbn in T; try discriminate; auto.
  inversion H1; subst; discriminate.
Qed.
Lemma solitary_step ty x y y' : solitary ty -> scan U t false cs x = Ok y -> scan U t false cs y = Ok y' ->
  tok y = ty -> tok y' = ty -> False.
Proof.
  intros T S S' E E'.
  assert (NE : ty <> EOS) by (destruct T as [-> |[-> | ->]]; discriminate).
  destruct (step_kind _ _ _ _ _ HU S ltac:(congruence)) as (_ & _ & _ & K).
  destruct (step_kind _ _ _ _ _ HU S' ltac:(congruence)) as (_ & _ & _ & K').
  destruct T as [-> |[-> | ->]].
  - apply start_tag_step in S as [_ S]; auto. apply start_tag_step in S' as [S' _]; auto. congruence.
  - destruct K as [K1 K2 K3 K4|K1|[K1|K1]|K1]; try congruence.
    destruct K' as [L1 L2 L3 L4|L1|[L1|L1]|L1]; try congruence.
  - destruct K as [K1|K1 K2 K3 K4|[K1|K1]|K1 K2]; try congruence.
    destruct K' as [L1|L1 L2 L3 L4|[L1|L1]|L1 L2]; try congruence.
Qed.
Lemma touch_unique ty o sc m z k k' : solitary ty -> runs U t false cs sc m z ->
  In k (map token_of m) -> In k' (map token_of m) -> touch ty o k -> touch ty o k' -> k = k'.
Proof.
  intros T R. revert k k'.
  assert (Q : forall sc m z, runs U t false cs sc m z -> forall x, scan U t false cs x = Ok sc -> tok sc = ty ->
     forall k', In k' (map token_of m) -> touch ty (pos sc) k' -> False).
  { intros sc' m' z' R' x S E k' I TK. inversion R'; subst; [inversion I|]. cbn [map] in I. destruct I as [<-|I].
    - apply (solitary_step _ _ _ _ T S H); auto. apply TK.
    - destruct (step_kind _ _ _ _ _ HU H H0) as (A & _).
      pose proof (runs_after U t cs HU _ _ _ H1) as RA. apply in_map_iff in I as (u & <- & I).
      rewrite Forall_forall in RA. apply RA in I. destruct TK as [_ TK]. cbn in TK. lia. }
  assert (W : forall sc m z, runs U t false cs sc m z -> forall k' x,
     In k' (map token_of m) -> scan U t false cs x = Ok sc -> touch ty o (token_of sc) -> touch ty o k' -> False).
  { intros sc' m' z' R' k' x I S TK TK'. pose proof (runs_after U t cs HU _ _ _ R') as RA.
    assert (I' := I). apply in_map_iff in I as (u & <- & I). rewrite Forall_forall in RA. apply RA in I.
    destruct TK as [TK1 TK2]. destruct TK' as [TK1' TK2']. cbn in *.
    assert (o = pos sc') by lia. subst o. eapply (Q sc' m' z' R' x S TK1); eauto. split; auto. }
  induction R as [sc|sc sc' m f S NE R IH]; intros k k' I I' TK TK'; [inversion I|].
  cbn [map] in I, I'. destruct I as [<-|I], I' as [<-|I']; auto; exfalso.
  - eapply (W sc' m f R); eauto.
  - eapply (W sc' m f R); eauto.
Qed.
Lemma find_touch ty o sc m z k : solitary ty -> runs U t false cs sc m z ->
  In k (map token_of m) -> touch ty o k -> find (touchb ty o) (map token_of m) = Some k.
Proof.
  intros T R I TK. destruct (find (touchb ty o) (map token_of m)) as [k'|] eqn:E.
  - apply find_some in E as [E1 E2]. apply touchb_spec in E2. f_equal. eapply touch_unique; eauto.
  - exfalso. eapply find_none in E; [|exact I]. apply touchb_spec in TK. congruence.
Qed.
Lemma find_no_touch ty o (l : list token) : (forall k, In k l -> ~ touch ty o k) -> find (touchb ty o) l = None.
Proof.
  intros H. destruct (find (touchb ty o) l) as [k|] eqn:E; auto. apply find_some in E as [E1 E2].
  apply touchb_spec in E2. exfalso. eapply H; eauto.
Qed.
End Scan.

(** ** Character entities *)
Definition alnum (c : N) : Prop := (48 <= c <= 57 \/ 65 <= c <= 90 \/ 97 <= c <= 122)%N.
(** The letters and digits around the cursor [o], those at [a, b), follow an '&'. *)
Definition entity_at (t : str) (o a b : nat) : Prop :=
  0 < a /\ a <= o <= b /\ nth_error t (a - 1) = Some 38%N /\
  (forall i, a <= i < b -> exists c, nth_error t i = Some c /\ alnum c) /\
  (forall c, nth_error t b = Some c -> ~ alnum c).
(** A semicolon belongs to it. *)
Definition entity_end (t : str) (b : nat) : nat :=
  match nth_error t b with Some c => if (c =? 59)%N then b + 1 else b | None => b end.

Lemma alnum_eq c : ascii_alnum c = true <-> alnum c.
Proof.
  unfold ascii_alnum, ascii_alpha, ascii_digit, ascii_upper_letter, ascii_lower_letter, alnum. lia.
Qed.
Lemma alnum_at_spec t i : alnum_at t i = true <-> exists c, nth_error t i = Some c /\ alnum c.
Proof.
  unfold alnum_at. destruct (nth_error t i) as [c|].
  - rewrite alnum_eq. split; [eauto|]. intros (c' & E & A). inv E. auto.
  - split; [discriminate|]. intros (c' & E & A). discriminate.
Qed.
Lemma alnum_left_spec t o : alnum_left t o <= o /\ (forall i, alnum_left t o <= i < o -> alnum_at t i = true) /\
  (forall i, S i = alnum_left t o -> alnum_at t i = false).
Proof.
  induction o as [|o (IH1 & IH2 & IH3)]; cbn [alnum_left]; [repeat split; intros; lia|].
  destruct (alnum_at t o) eqn:E.
  - split; [lia|]. split; auto. intros i I. destruct (Nat.eq_dec i o) as [-> |]; auto. apply IH2. lia.
  - split; [lia|]. split; [intros; lia|]. intros i I. inv I. auto.
Qed.
Lemma alnum_run_spec t : forall k, (forall i, k <= i < k + alnum_run (skipn k t) -> alnum_at t i = true) /\
  alnum_at t (k + alnum_run (skipn k t)) = false /\ alnum_run (skipn k t) <= length t - k.
Proof.
  intros k. assert (Q : forall s, (forall i, i < alnum_run s -> alnum_at s i = true) /\ alnum_at s (alnum_run s) = false /\
     alnum_run s <= length s).
  { induction s as [|c s (IH1 & IH2 & IH3)]; cbn [alnum_run length].
    - repeat split; auto; intros; lia.
    - destruct (ascii_alnum c) eqn:E.
      + split; [|split; [exact IH2|lia]]. intros [|i] I; [exact E|]. apply (IH1 i). lia.
      + split; [intros; lia|]. split; [exact E|lia]. }
  destruct (Q (skipn k t)) as (Q1 & Q2 & Q3). unfold alnum_at in *. rewrite <- skipn_nth_error, <- skipn_length. split; auto.
  intros i I. replace i with (k + (i - k)) by lia. rewrite <- skipn_nth_error. apply Q1. lia.
Qed.
Lemma entity_bounds t o a b : entity_at t o a b -> a = alnum_left t o /\ b = a + alnum_run (skipn a t).
Proof.
  intros (A0 & A1 & A2 & A3 & A4). destruct (alnum_left_spec t o) as (L1 & L2 & L3).
  assert (NA : alnum_at t (a - 1) = false).
  { unfold alnum_at. rewrite A2. reflexivity. }
  assert (E : a = alnum_left t o).
  { destruct (Nat.lt_trichotomy a (alnum_left t o)) as [Q|[Q|Q]]; auto; exfalso.
    - specialize (L3 (alnum_left t o - 1) ltac:(lia)). destruct (A3 (alnum_left t o - 1)) as (c & C & C'); [lia|].
      assert (alnum_at t (alnum_left t o - 1) = true) by (apply alnum_at_spec; eauto). congruence.
    - rewrite L2 in NA by lia. discriminate. }
  split; auto. destruct (alnum_run_spec t a) as (R1 & R2 & _).
  destruct (Nat.lt_trichotomy b (a + alnum_run (skipn a t))) as [Q|[Q|Q]]; auto; exfalso.
  - specialize (R1 b ltac:(lia)). apply alnum_at_spec in R1 as (c & C & C'). eapply A4; eauto.
  - destruct (A3 (a + alnum_run (skipn a t))) as (c & C & C'); [lia|].
    assert (alnum_at t (a + alnum_run (skipn a t)) = true) by (apply alnum_at_spec; eauto). congruence.
Qed.
Lemma entity_dec t o : o <= length t -> {a & {b | entity_at t o a b}} + {forall a b, ~ entity_at t o a b}.
Proof.
  intros LO. destruct (alnum_left t o) as [|k] eqn:K.
  - right. intros a b E. assert (E' := E). apply entity_bounds in E as [E _]. destruct E'. lia.
  - destruct (nth_error t k) as [c|] eqn:C.
    + destruct (N.eq_dec c 38) as [-> |NE].
      * left. exists (S k), (S k + alnum_run (skipn (S k) t)).
        destruct (alnum_left_spec t o) as (L1 & L2 & L3). rewrite K in *.
        destruct (alnum_run_spec t (S k)) as (R1 & R2 & R3). split; [lia|].
        assert (o <= S k + alnum_run (skipn (S k) t)).
        { destruct (Nat.le_gt_cases o (S k + alnum_run (skipn (S k) t))) as [|Q]; auto. exfalso.
          rewrite L2 in R2 by lia. discriminate. }
        split; [lia|]. replace (S k - 1) with k by lia. split; auto. split.
        -- intros i I. apply alnum_at_spec. auto.
        -- intros c C' A. assert (alnum_at t (S k + alnum_run (skipn (S k) t)) = true) by (apply alnum_at_spec; eauto). congruence.
      * right. intros a b E. assert (E' := E). apply entity_bounds in E as [E _]. rewrite K in E. subst a.
        destruct E' as (_ & _ & E & _). replace (S k - 1) with k in E by lia. congruence.
    + right. intros a b E. assert (E' := E). apply entity_bounds in E as [E _]. rewrite K in E. subst a.
      destruct E' as (_ & _ & E & _). replace (S k - 1) with k in E by lia. congruence.
Qed.

(** The column of the cursor is at least the number of letters and digits before it
    (so that the subtraction cannot underflow). *)
Definition column_ok (t : str) (o : nat) (p : position) : Prop :=
  forall a, a <= o -> (forall i, a <= i < o -> exists c, nth_error t i = Some c /\ alnum c) -> o - a <= character p.

Section Entity.
Variable d : textdoc.
Notation t := (d_text d).
Lemma entity_range_some p o a b : entity_at t o a b -> o - a <= character p ->
  get_entity_range d p o = Ok (Some (mkRange (mkPos (line p) (character p - (o - a)))
                                            (mkPos (line p) (character p - (o - a) + (entity_end t b - a))))).
Proof.
  intros E C. destruct (entity_bounds _ _ _ _ E) as [E1 E2]. destruct E as (A0 & A1 & A2 & _).
  unfold get_entity_range. rewrite <- E1. unfold usub. replace (o - a <=? character p) with true by lia. cbn [bind].
  rewrite <- E2. do 2 f_equal. destruct a as [|k]; [lia|]. cbn [Nat.sub] in A2. rewrite Nat.sub_0_r in A2. rewrite A2.
  change (38 =? 38)%N with true. cbv iota. do 2 f_equal. f_equal. unfold entity_end.
  replace (alnum_run (skipn (S k) t)) with (b - S k) by lia.
  destruct (nth_error t b) as [c|]; [destruct (c =? 59)%N|]; lia.
Qed.
Lemma entity_range_none p o : (forall a b, ~ entity_at t o a b) -> o <= length t -> column_ok t o p ->
  get_entity_range d p o = Ok None.
Proof.
  intros E LO C. unfold get_entity_range. set (k := alnum_left t o).
  destruct (alnum_left_spec t o) as (L1 & L2 & L3).
  assert (o - k <= character p).
  { apply C; auto. intros i I. apply alnum_at_spec. auto. }
  unfold usub. replace (o - k <=? character p) with true by lia. cbn [bind]. f_equal.
  destruct k as [|k'] eqn:K; auto. destruct (nth_error t k') as [c|] eqn:B; auto.
  destruct (c =? 38)%N eqn:Q; auto. exfalso. apply N.eqb_eq in Q. subst c.
  destruct (entity_dec t o LO) as [(a & b & X)|X]; [eapply E; eauto|].
  clear E. destruct (alnum_run_spec t (S k')) as (R1 & R2 & R3).
  apply (X (S k') (S k' + alnum_run (skipn (S k') t))). split; [lia|].
  split. { split; [lia|]. destruct (Nat.le_gt_cases o (S k' + alnum_run (skipn (S k') t))) as [|Q]; auto. exfalso.
           unfold k in *. rewrite L2 in R2 by lia. discriminate. }
  replace (S k' - 1) with k' by lia. split; auto. split.
  - intros i I. apply alnum_at_spec. auto.
  - intros c C' A. assert (alnum_at t (S k' + alnum_run (skipn (S k') t)) = true) by (apply alnum_at_spec; eauto). congruence.
Qed.
Lemma filter_entity_eq o a b : entity_at t o a b -> filter_entity d o = Ok (bs "&" ++ sub t a b ++ bs ";").
Proof.
  intros E. destruct (entity_bounds _ _ _ _ E) as [E1 E2]. destruct E as (A0 & _). unfold filter_entity.
  rewrite <- E1. destruct a; [lia|]. unfold sub. replace (b - S a) with (alnum_run (skipn (S a) t)) by lia. reflexivity.
Qed.
End Entity.

(** In the UTF-16 document positions after letters and digits are as many columns on. *)
Lemma utf16_plain t a b : Utf8 t -> is_boundary t a = true -> a <= b -> b <= length t ->
  (forall i, a <= i < b -> exists c, nth_error t i = Some c /\ (c < 128 /\ c <> 10 /\ c <> 13)%N) ->
  position_at (utf16_doc t) b =
  mkPos (line (position_at (utf16_doc t) a)) (character (position_at (utf16_doc t) a) + (b - a)).
Proof.
  intros HU BA L1 L2 AL. revert a BA L1 AL.
  assert (STEP : forall a c, is_boundary t a = true -> nth_error t a = Some c -> (c < 128 /\ c <> 10 /\ c <> 13)%N ->
    is_boundary t (a + 1) = true /\ position_at (utf16_doc t) (a + 1) =
    mkPos (line (position_at (utf16_doc t) a)) (character (position_at (utf16_doc t) a) + 1)).
  { intros a c BA C A. assert (c < 128)%N by lia.
    assert (LA : a < length t) by (eapply nth_error_lt; eauto).
    apply boundary_Bd in BA as (c1 & c2 & S1 & S2 & E1 & E2); auto; [|lia].
    destruct c2 as [|x c2].
    { exfalso. subst t. rewrite app_length in LA. cbn in LA. lia. }
    cbn [forallb] in S2. apply andb_true_iff in S2 as [SX S2].
    assert (x = c).
    { rewrite E1, nth_error_app2, <- E2, Nat.sub_diag in C by lia. rewrite encode_cons in C.
      destruct (encode1 x) as [|y r] eqn:EX; [apply encode1_nonempty in SX; rewrite EX in SX; cbn in SX; lia|].
      cbn in C. inv C. symmetry. destruct (encode1_ascii x c r SX EX); auto. }
    subst x. assert (EC : encode1 c = [c]) by (unfold encode1; replace (c <? 128)%N with true by lia; auto).
    assert (SA : forallb scalar (c1 ++ [c]) = true) by (rewrite forallb_app, S1; cbn; rewrite SX; auto).
    assert (EA : a + 1 = length (encode (c1 ++ [c]))).
    { rewrite encode_app, app_length. cbn. rewrite EC. cbn. lia. }
    assert (ET : t = encode ((c1 ++ [c]) ++ c2)).
    { rewrite <- app_assoc, encode_app. exact E1. }
    split.
    - apply Bd_boundary. exists (c1 ++ [c]), c2. rewrite <- encode_app. auto.
    - unfold utf16_doc. cbn [position_at]. rewrite EA, E2, ET.
      rewrite decode_encode by (rewrite forallb_app, SA, S2; auto).
      rewrite pos_walk_after by auto. rewrite <- app_assoc. rewrite pos_walk_after by (auto; cbn; rewrite SX; auto).
      rewrite pos_after_app. cbn [app pos_after]. set (q := pos_after c1 (c :: c2) (mkPos 0 0)).
      unfold next_pos. replace (ends_line c c2) with false.
      2:{ symmetry. unfold ends_line. lia. }
      unfold utf16_width. replace (c <? 65536)%N with true by lia. reflexivity. }
  intros a. remember (b - a) as n eqn:Hn. revert a Hn. induction n as [|n IH]; intros a Hn BA L AL.
  - assert (a = b) by lia. subst b. destruct (position_at (utf16_doc t) a). cbn. f_equal. lia.
  - destruct (AL a) as (c & C & A); [lia|]. destruct (STEP a c BA C A) as (B & P).
    rewrite (IH (a + 1)); [|lia|auto|lia|]. 2:{ intros i I. apply AL. lia. }
    rewrite P. cbn [line character]. f_equal. lia.
Qed.
Lemma utf16_alnum t a b : Utf8 t -> is_boundary t a = true -> a <= b -> b <= length t ->
  (forall i, a <= i < b -> exists c, nth_error t i = Some c /\ (alnum c \/ c = 59%N)) ->
  position_at (utf16_doc t) b =
  mkPos (line (position_at (utf16_doc t) a)) (character (position_at (utf16_doc t) a) + (b - a)).
Proof.
  intros HU BA L1 L2 AL. apply utf16_plain; auto. intros i I. destruct (AL i I) as (c & C & A). exists c. split; auto. unfold alnum in A. lia.
Qed.
Lemma entity_end_le t b : b <= entity_end t b /\ (b <= length t -> entity_end t b <= length t).
Proof.
  unfold entity_end. destruct (nth_error t b) as [c|] eqn:E; [|lia]. apply nth_error_lt in E. destruct (c =? 59)%N; lia.
Qed.
Lemma utf16_column t o p : Utf8 t -> o <= length t -> is_boundary t o = true -> p = position_at (utf16_doc t) o ->
  column_ok t o p.
Proof.
  intros HU L B -> a LA AL. destruct (Nat.eq_dec a o) as [-> |NE]; [lia|].
  rewrite (utf16_alnum t a o); auto.
  - cbn. lia.
  - destruct (AL a) as (c & C & A); [lia|]. eapply boundary_byte; eauto. unfold alnum in A. lia.
  - intros i I. destruct (AL i I) as (c & C & A). eauto.
Qed.
Lemma utf16_entity_range t o p a b : Utf8 t -> o <= length t -> p = position_at (utf16_doc t) o ->
  entity_at t o a b ->
  get_entity_range (utf16_doc t) p o = Ok (Some (range_at (utf16_doc t) a (entity_end t b))) /\
  is_boundary t a = true /\ is_boundary t (entity_end t b) = true.
Proof.
  intros HU L -> E. assert (E' := E). destruct E' as (A0 & A1 & A2 & A3 & A4).
  assert (LB : b <= length t).
  { destruct (Nat.eq_dec a b) as [-> |]; [lia|]. destruct (A3 (b - 1)) as (c & C & _); [lia|]. apply nth_error_lt in C. lia. }
  destruct (entity_end_le t b) as [EE1 EE2]. specialize (EE2 LB).
  assert (BA : is_boundary t a = true).
  { apply Bd_boundary. replace a with (a - 1 + 1) by lia. eapply Bd_after_ascii; eauto. lia. }
  assert (AL : forall i, a <= i < entity_end t b -> exists c, nth_error t i = Some c /\ (alnum c \/ c = 59%N)).
  { intros i I. destruct (Nat.lt_ge_cases i b) as [LI|LI].
    - destruct (A3 i) as (c & C & C'); [lia|]. eauto.
    - unfold entity_end in I. destruct (nth_error t b) as [c|] eqn:Eb; [|lia]. destruct (c =? 59)%N eqn:Q; [|lia].
      assert (i = b) by lia. subst i. exists c. split; auto. right. lia. }
  assert (P1 := utf16_alnum t a o HU BA ltac:(lia) L).
  assert (P2 := utf16_alnum t a (entity_end t b) HU BA ltac:(lia) EE2 AL).
  specialize (P1 ltac:(intros i I; apply AL; lia)).
  rewrite (entity_range_some (utf16_doc t) _ _ a b E); [|rewrite P1; cbn; lia].
  split; [|split; auto].
  - do 2 f_equal. unfold range_at. rewrite P2, P1. cbn [line character d_text utf16_doc].
    destruct (position_at (utf16_doc t) a) as [la ca]. cbn [line character]. do 2 f_equal; lia.
  - destruct (Nat.eq_dec (entity_end t b) a) as [-> |]; auto.
    destruct (AL (entity_end t b - 1)) as (c & C & A); [lia|].
    apply Bd_boundary. replace (entity_end t b) with (entity_end t b - 1 + 1) by lia.
    eapply Bd_after_ascii; eauto. unfold alnum in A. lia.
Qed.

(** A value without its quotes: one quote is taken away at the front and one at the end. *)
Definition a_quote (b : N) : Prop := b = 34%N \/ b = 39%N.
Definition unquoted (s v : str) : Prop := exists a z, s = a ++ v ++ z /\
  ((a = [] /\ forall b r, s = b :: r -> ~ a_quote b) \/ exists b, a = [b] /\ a_quote b) /\
  ((z = [] /\ forall b r, v = r ++ [b] -> ~ a_quote b) \/ exists b, z = [b] /\ a_quote b).
Lemma quote_byte b : is_quote_byte b = true <-> a_quote b.
Proof. unfold is_quote_byte, a_quote. rewrite orb_true_iff, !N.eqb_eq. tauto. Qed.
Lemma trim_unquoted s : unquoted s (trim_quotes s).
Proof.
  destruct s as [|b r].
  { exists [], []. split; [reflexivity|]. split; left; (split; [reflexivity|]); intros b r E; [discriminate|destruct r; discriminate]. }
  set (s1 := if is_quote_byte b then r else b :: r).
  assert (A : exists a, b :: r = a ++ s1 /\ ((a = [] /\ forall b' r', b :: r = b' :: r' -> ~ a_quote b') \/ exists b', a = [b'] /\ a_quote b')).
  { unfold s1. destruct (is_quote_byte b) eqn:Q.
    - exists [b]. split; [reflexivity|]. right. exists b. apply quote_byte in Q. auto.
    - exists []. split; [reflexivity|]. left. split; [reflexivity|]. intros b' r' E. injection E as <- _. intros X. apply quote_byte in X. congruence. }
  assert (T : trim_quotes (b :: r) = match rev s1 with e :: m => if is_quote_byte e then rev m else s1 | [] => s1 end).
  { unfold trim_quotes. destruct r as [|c r].
    - unfold s1. destruct (is_quote_byte b) eqn:Q; cbn [rev app]; rewrite ?Q; reflexivity.
    - reflexivity. }
  destruct A as (a & E & A). rewrite T. destruct (rev s1) as [|e m] eqn:ER.
  - exists a, []. split; [rewrite app_nil_r; exact E|]. split; [exact A|]. left. split; [reflexivity|]. intros b' r' E'.
    rewrite E', rev_app_distr in ER. discriminate.
  - assert (E1 : s1 = rev m ++ [e]) by (rewrite <- (rev_involutive s1), ER; reflexivity).
    destruct (is_quote_byte e) eqn:Q.
    + exists a, [e]. split; [rewrite E, E1; reflexivity|]. split; [exact A|]. right. exists e. apply quote_byte in Q. auto.
    + exists a, []. split; [rewrite app_nil_r; exact E|]. split; [exact A|]. left. split; [reflexivity|]. intros b' r' E'.
      rewrite E' in E1. apply app_inj_tail in E1 as [_ ->]. intros X. apply quote_byte in X. congruence.
Qed.
(** That says which text it is. *)
Lemma unquoted_one s v v' : unquoted s v -> unquoted s v' -> v = v'.
Proof.
  intros (a & z & E & A & Z) (a' & z' & E' & A' & Z').
  assert (F : v ++ z = v' ++ z').
  { destruct A as [[-> A]|(b & -> & Q)], A' as [[-> A']|(b' & -> & Q')]; cbn [app] in E, E'; try congruence; exfalso; [eapply A|eapply A']; eauto. }
  destruct Z as [[-> Z]|(b & -> & Q)], Z' as [[-> Z']|(b' & -> & Q')]; rewrite ?app_nil_r in F; try congruence.
  - exfalso. eapply Z; eauto.
  - exfalso. eapply Z'; eauto.
  - apply app_inj_tail in F. tauto.
Qed.

(** Hexadecimal numerals, with the digits 0-9 and A-F. *)
Definition hex_value (b : N) : N := if (b <? 58)%N then (b - 48)%N else (b - 55)%N.
Definition is_hex_digit (b : N) : Prop := (48 <= b <= 57 \/ 65 <= b <= 70)%N.
Definition numeral (s : str) : N := fold_left (fun n b => (16 * n + hex_value b)%N) s 0%N.
(** The numeral of [n], of at least two digits. *)
Definition hex_of (n : N) (s : str) : Prop := Forall is_hex_digit s /\ numeral s = n /\
  (length s = 2 \/ (2 < length s /\ hd_error s <> Some 48%N)).
Lemma hex_digit_ok n : (n < 16)%N -> is_hex_digit (hex_digit n) /\ hex_value (hex_digit n) = n /\ (n <> 0 -> hex_digit n <> 48)%N.
Proof.
  intros H. unfold hex_digit, is_hex_digit, hex_value. destruct (n <? 10)%N eqn:E; [|].
  - replace (48 + n <? 58)%N with true by lia. lia.
  - replace (55 + n <? 58)%N with false by lia. lia.
Qed.
Lemma numeral_app a b : numeral (a ++ [b]) = (16 * numeral a + hex_value b)%N.
Proof. unfold numeral. rewrite fold_left_app. reflexivity. Qed.
Lemma hex_digits_ok f : forall n acc, (n < 16 ^ N.of_nat f)%N -> 0 < f -> exists ds, hex_digits f n acc = ds ++ acc /\
  Forall is_hex_digit ds /\ numeral ds = n /\ 0 < length ds /\ (1 < length ds -> hd_error ds <> Some 48%N) /\ (n <> 0%N -> hd_error ds <> Some 48%N).
Proof.
  induction f as [|f IH]; intros n acc H F; [lia|]. cbn [hex_digits].
  assert (M : (n mod 16 < 16)%N) by (apply N.mod_lt; lia). destruct (hex_digit_ok _ M) as (D1 & D2 & D3).
  destruct (n <? 16)%N eqn:E.
  - exists [hex_digit (n mod 16)]. split; [reflexivity|]. split; [constructor; auto|]. rewrite N.mod_small in * by lia.
    split; [unfold numeral; cbn [fold_left]; rewrite D2; lia|]. split; [cbn; lia|]. split; [cbn; lia|]. intros NZ Q. injection Q as Q. apply (D3 NZ Q).
  - assert (Q : (n / 16 < 16 ^ N.of_nat f)%N).
    { apply N.div_lt_upper_bound; [lia|]. rewrite Nnat.Nat2N.inj_succ, N.pow_succ_r' in H. exact H. }
    assert (NZ : (n / 16 <> 0)%N) by (intros Z; apply N.div_small_iff in Z; lia).
    assert (F' : 0 < f) by (destruct f; [cbn in Q; lia|lia]).
    destruct (IH (n / 16)%N (hex_digit (n mod 16) :: acc) Q F') as (ds & E1 & E2 & E3 & E4 & E5 & E6).
    exists (ds ++ [hex_digit (n mod 16)]). split; [rewrite E1, <- app_assoc; reflexivity|]. split; [apply Forall_app; auto|].
    split; [rewrite numeral_app, E3, D2; pose proof (N.div_mod n 16); lia|]. rewrite app_length. cbn [length]. split; [lia|].
    assert (HD : hd_error (ds ++ [hex_digit (n mod 16)]) = hd_error ds) by (destruct ds; [cbn in E4; lia|reflexivity]). rewrite HD. auto.
Qed.
Lemma hex_ok n : (n < 16 ^ 8)%N -> hex_of n (hex n).
Proof.
  intros H. destruct (hex_digits_ok 8 n [] H ltac:(lia)) as (ds & E1 & E2 & E3 & E4 & E5 & _). rewrite app_nil_r in E1.
  unfold hex. rewrite E1. destruct ds as [|a [|b ds]]; [cbn in E4; lia| |].
  - split; [constructor; auto; left; lia|]. split; [exact E3|]. left. reflexivity.
  - split; [exact E2|]. split; [exact E3|]. destruct ds as [|c ds]; [left; reflexivity|]. right. split; [cbn; lia|apply E5; cbn; lia].
Qed.
(** What is said about the characters [v]: they, and behind "U+" their numbers, one after the other, with zeros
    in front to make at least four digits. *)
Theorem C45_reference_text : forall v, forallb scalar v = true ->
  exists zeros numbers, entity_text v =
    bs "Character entity representing '" ++ encode v ++ bs "', unicode equivalent 'U+" ++ zeros ++ List.concat numbers ++ bs "'" /\
    Forall2 hex_of v numbers /\ (forall b, In b zeros -> b = 48%N) /\
    4 <= length (zeros ++ List.concat numbers) /\ (zeros <> [] -> length (zeros ++ List.concat numbers) = 4).
Proof.
  intros v SV. exists (repeat 48%N (4 - length (flat_map hex v))), (map hex v).
  assert (EC : List.concat (map hex v) = flat_map hex v) by (symmetry; apply flat_map_concat_map). rewrite EC.
  split; [unfold entity_text; rewrite <- ?app_assoc; reflexivity|]. split.
  { clear EC. induction v as [|c v IH]; cbn [map]; constructor.
    - apply hex_ok. cbn [forallb] in SV. apply andb_true_iff in SV as [SV _]. unfold scalar in SV. change (16 ^ 8)%N with 4294967296%N. lia.
    - apply IH. cbn [forallb] in SV. apply andb_true_iff in SV as [_ SV]. exact SV. }
  split; [intros b I; apply repeat_spec in I; auto|]. rewrite app_length, repeat_length. split; [lia|].
  intros NZ. destruct (4 - length (flat_map hex v)) eqn:E; [elim NZ; reflexivity|lia].
Qed.
Print Assumptions C45_reference_text.

Section Main.
Variables (U : unicode) (d : textdoc) (cs : bool) (void : list str) (roots : list node).
Hypothesis HD : textdoc_ok d.
Hypothesis HP : parse U (d_text d) cs void = Ok roots.
Notation t := (d_text d).
Let HU : Utf8 t := do_utf8 d HD.

(** A token of the start tag of [n], which ends at [s]. *)
Definition start_tag_token (n : node) (s : nat) (k : token) : Prop :=
  exists l, doc_tokens U t cs = Ok l /\ In k l /\ n_start n <= tk_off k /\ tk_off k < tk_end k /\ tk_end k <= s.

Lemma stt_runs n s : In n (doc_nodes roots) -> n_ste n = Some s ->
  exists m z, runs U t false cs (scanner_new (n_start n) WithinContent) m z /\
    (forall k, In k (map token_of m) <-> start_tag_token n s k) /\
    Exists (fun x => pos x = s) m /\ Bd t (n_start n) /\ pos z <= length t /\
    exists op tl, map token_of m = op :: tl /\ tk_type op = StartTagOpen.
Proof.
  intros I ST. destruct (start_tag_runs U t cs void roots HU HP n I)
    as (pre & op & ks & post & m & z & T & O1 & O2 & O3 & K1 & K2 & _ & SE & R & M).
  exists m, z. rewrite ST in SE. destruct post as [|k r]; [discriminate|]. cbn [ste_of] in SE.
  destruct (token_eqb (tk_type k) StartTagSelfClose || token_eqb (tk_type k) StartTagClose && (tk_off k <? tk_end k)) eqn:Q;
    [|discriminate]. apply Some_inj in SE.
  assert (TL := doc_tiles _ _ _ _ HU T). apply tiles_app in TL as (a & TL1 & TL2).
  cbn [tiles] in TL2. destruct TL2 as (A1 & A2 & A3 & TL2). apply tiles_app in TL2 as (b & TL2 & TL3).
  cbn [tiles] in TL3. destruct TL3 as (B1 & B2 & B3 & TL3).
  assert (SH : Forall (token_shape U t true) (pre ++ op :: ks ++ k :: r)).
  { assert (T' := T). unfold doc_tokens in T'. apply bind_ok in T' as ([l' f] & T' & E). apply Ok_inj in E. subst l'.
    revert T'. apply tokens_forall. intros u v. apply scan_shape. auto. }
  assert (NK : tk_off k < tk_end k).
  { apply orb_true_iff in Q as [Q|Q]; [|lia]. apply token_eqb_eq in Q. rewrite Forall_forall in SH.
    specialize (SH k ltac:(apply in_or_app; cbn; right; right; apply in_or_app; cbn; auto)).
    unfold token_shape in SH. rewrite Q in SH. apply (f_equal (@length N)) in SH.
    destruct (Nat.lt_ge_cases (tk_off k) (tk_end k)); auto. exfalso. unfold sub in SH.
    replace (tk_end k - tk_off k) with 0 in SH by lia. cbn in SH. lia. }
  cbn [close_part] in M. replace (tk_off k <? tk_end k) with true in M by lia.
  split; auto.
  assert (NE : Forall (fun x => tok_off x < pos x) m).
  { eapply Forall_impl; [|apply (runs_after U t cs HU _ _ _ R)]. cbn. lia. }
  split; [|split; [|split; [|split; [|eauto]]]].
  - intros x. rewrite M. split.
    + intros X. exists (pre ++ op :: ks ++ k :: r).
      assert (X' : In x (pre ++ op :: ks ++ k :: r)).
      { apply in_or_app. right. destruct X as [->|X]; [left; auto|]. right. apply in_app_iff in X as [X|[->|[]]]; apply in_or_app; cbn; auto. }
      assert (tk_off x < tk_end x).
      { rewrite <- M in X. apply in_map_iff in X as (y & <- & Y). rewrite Forall_forall in NE. apply NE in Y. exact Y. }
      repeat split; auto.
      * pose proof (tiles_le _ _ _ TL2). destruct X as [->|X]; [lia|]. apply in_app_iff in X as [X|[->|[]]]; [|lia].
        apply (tiles_bounds _ _ _ _ TL2) in X. lia.
      * pose proof (tiles_le _ _ _ TL2). destruct X as [->|X]; [lia|]. apply in_app_iff in X as [X|[->|[]]]; [|lia].
        apply (tiles_bounds _ _ _ _ TL2) in X. lia.
    + intros (l & T' & X & X1 & X2 & X3). rewrite T in T'. apply Ok_inj in T'. subst l.
      pose proof (tiles_le _ _ _ TL2).
      apply in_app_iff in X as [X|[->|X]]; [apply (tiles_bounds _ _ _ _ TL1) in X; lia|left; auto|].
      right. apply in_app_iff in X as [X|[->|X]]; [apply in_or_app; auto|apply in_or_app; cbn; auto|].
      apply (tiles_bounds _ _ _ _ TL3) in X. lia.
  - apply Exists_exists.
    assert (X : In k (map token_of m)) by (rewrite M; right; apply in_or_app; cbn; auto).
    apply in_map_iff in X as (y & Y1 & Y2). exists y. split; auto. rewrite SE, <- Y1. reflexivity.
  - rewrite <- O2. eapply Bd_at_ascii; eauto; [|instantiate (1 := LT); reflexivity].
    destruct (node_facts _ _ _ _ _ HU HP) as (l & _ & F). destruct (F n I). congruence.
  - eapply runs_end; eauto. cbn. lia.
Qed.

(** ** The loop that finds the name of an attribute *)
Definition name_fold (l : list token) (prev : option str) : option str :=
  fold_left (fun acc k => if token_eqb (tk_type k) AttributeName then Some (tk_text t k) else acc) l prev.
Lemma value_name_fold l ka prev : value_name l ka -> name_fold l prev = Some (tk_text t ka).
Proof.
  intros (l1 & l2 & -> & A & F). unfold name_fold. rewrite fold_left_app. cbn [fold_left]. rewrite A.
  change (token_eqb AttributeName AttributeName) with true. cbv iota.
  generalize (Some (tk_text t ka)). induction F as [|k l2 K F IH]; intros o; auto.
  cbn [fold_left]. destruct K as [-> | ->]; auto.
Qed.
Lemma attr_before_eq stop : forall m sc z fuel prev k, runs U t false cs sc (m ++ [k]) z ->
  Forall (tok_bd t) (map token_of m) -> tok sc <> EOS -> pos sc <= stop -> Forall (fun x => pos x <= stop) m ->
  stop < pos k -> tok k <> AttributeName -> length m + 2 <= fuel ->
  attr_before U d cs fuel stop sc prev = Ok (name_fold (map token_of m) prev).
Proof.
  induction m as [|x m IH]; intros sc z fuel prev k R B NE L F LK NA FU; destruct fuel as [|fuel]; cbn [length] in FU; try lia;
    cbn [attr_before app] in *; apply token_eqb_neq in NE; rewrite NE; cbn [negb andb];
    replace (pos sc <=? stop) with true by lia; cbv iota; apply runs_inv in R as (S & NE' & R); rewrite S; cbn [bind].
  - apply token_eqb_neq in NA. rewrite NA. destruct fuel as [|fuel]; [lia|]. cbn [attr_before].
    replace (pos k <=? stop) with false by lia. rewrite andb_false_r. reflexivity.
  - inversion F; subst. cbn [map] in B. inversion B; subst.
    cbn [map name_fold fold_left token_of tk_type]. destruct (token_eqb (tok x) AttributeName) eqn:E.
    + apply token_eqb_eq in E. unfold token_text. destruct H3 as (B1 & B2 & B3); [cbn; unfold text_token; auto|].
      cbn [token_of tk_off tk_end] in B1, B2, B3.
      rewrite (proj2 (slice_ok t (tok_off x) (pos x) (tk_text t (token_of x)))) by (repeat split; auto using Bd_boundary, Bd_le; lia).
      cbn [bind].
      apply (IH x z fuel _ k); auto; lia.
    + apply (IH x z fuel _ k); auto; lia.
Qed.
Lemma token_range_eq ty start o m z : ty <> EOS -> runs U t false cs (scanner_new start WithinContent) m z ->
  start <= o -> start <= length t -> Exists (fun x => o < pos x) m ->
  hover_token_range U d cs ty start o =
  Ok (option_map (fun k => range_at d (tk_off k) (tk_end k)) (find (touchb ty o) (map token_of m))).
Proof.
  intros NT R L L' E. pose proof (runs_length U t cs HU _ _ _ R L') as LM. cbn [pos scanner_new] in LM.
  destruct (hover_scan_find U d cs HU ty o NT m _ z (scan_fuel t) R L E) as (r & H & Q).
  { unfold scan_fuel. lia. }
  unfold hover_token_range. rewrite H. cbn [bind]. f_equal.
  destruct (token_eqb (tok r) ty && (o <=? pos r)), (find (touchb ty o) (map token_of m)); cbn in *; try discriminate; auto.
  inv Q. auto.
Qed.
Lemma content_token k : tok_bd t k -> text_token (tk_type k) ->
  get_content d (range_at d (tk_off k) (tk_end k)) = Ok (tk_text t k) /\
  offset_at d (r_start (range_at d (tk_off k) (tk_end k))) = tk_off k.
Proof.
  intros B T. destruct (B T) as (B1 & B2 & B3). unfold get_content. cbn [r_start r_end range_at].
  rewrite !(do_inv d HD) by auto using Bd_le, Bd_boundary. split; auto.
  apply slice_ok. repeat split; auto using Bd_boundary, Bd_le; lia.
Qed.

(** Every tag that starts between the start of [n] and the cursor is complete. *)
Definition complete_tags (n : node) (o : nat) : Prop :=
  (forall m, In m (doc_nodes roots) -> n_start n <= n_start m <= o -> n_ste m <> None) /\
  (forall l k, doc_tokens U t cs = Ok l -> In k l -> n_start n <= tk_off k <= o -> tk_off k < tk_end k).
Lemma content_quiet n s o : innermost roots o n -> n_ste n = Some s -> s <= o -> complete_tags n o ->
  forall ty, tag_part ty -> hover_token_range U d cs ty (n_start n) o = Ok None.
Proof.
  intros IN ST LS [Q1 Q2] ty TP. assert (I : In n (doc_nodes roots)) by apply IN.
  destruct (node_facts _ _ _ _ _ HU HP) as (l & T & F). destruct (C12_spans _ _ _ _ _ HU HP) as [_ SP].
  rewrite Forall_forall in SP. destruct (SP n I) as (S1 & S2 & _).
  assert (LO : n_start n <= o < length t) by (destruct IN as (_ & ? & _); lia).
  destruct (content_runs U t cs void roots HU HP n l o I T LO (fun k => Q2 l k T))
    as (pre & op & l1 & k & l2 & m & z & E & K1 & K2 & O1 & O2 & O3 & R & M).
  assert (LA : n_start n <= length t) by lia.
  rewrite (token_range_eq ty (n_start n) o m z); auto; [|destruct TP as [-> |[-> | ->]]; discriminate|lia|].
  2:{ rewrite <- M in K1. apply in_map_iff in K1 as (y & Y & IY). apply Exists_exists. exists y. subst k. auto. }
  rewrite M. rewrite find_no_touch; auto. intros x X [TX TO].
  rewrite <- TX in TP.
  destruct X as [<-|X]; [rewrite O1 in TP; destruct TP as [TP|[TP|TP]]; discriminate|].
  apply in_split in X as (u1 & u2 & X).
  assert (E' : l = (pre ++ op :: u1) ++ x :: (u2 ++ l2)).
  { rewrite E, X. rewrite <- !app_assoc. cbn [app]. rewrite <- !app_assoc. reflexivity. }
  destruct (tag_part_in U t cs void roots HU HP l _ x _ T E' TP) as (m' & pre' & op' & ks & I' & EQ & O1' & O2' & FK).
  destruct (tag_part_owner U t cs HU l _ x _ T E' TP) as (ITX & _).
  assert (ND : Forall (fun k => in_tag (tk_state k) = true) (ks ++ [x])).
  { apply Forall_app. split; [|constructor; auto]. eapply Forall_impl; [|exact FK]. cbn. tauto. }
  assert (E2 : l = pre' ++ op' :: ks ++ x :: (u2 ++ l2)).
  { rewrite E', EQ. rewrite <- app_assoc. reflexivity. }
  pose proof (doc_tiles _ _ _ _ HU T) as TL.
  assert (GE : n_start n < n_start m' \/ (pre = pre' /\ op = op')).
  { destruct (app_split_after _ _ _ _ _ _ EQ) as [(q & Q)|[Q|(q & Q)]].
    - left. rewrite E2 in TL. apply tiles_app in TL as (a & A1 & A2). cbn [tiles] in A2.
      assert (Y : In op pre') by (rewrite Q; apply in_or_app; cbn; auto). apply (tiles_bounds _ _ _ _ A1) in Y. lia.
    - right. tauto.
    - exfalso. rewrite Q in EQ. rewrite <- app_assoc in EQ. apply app_inv_head in EQ. cbn [app] in EQ. injection EQ as EQ.
      rewrite Forall_forall in FK. destruct (FK op) as [_ N]; [rewrite <- EQ; apply in_or_app; cbn; auto|]. auto. }
  assert (LX : n_start m' <= o /\ tk_off op' <= tk_off x).
  { rewrite E2 in TL. apply tiles_app in TL as (a & A1 & A2). cbn [tiles] in A2. destruct A2 as (B1 & B2 & B3 & B4).
    assert (Y : In x (ks ++ x :: u2 ++ l2)) by (apply in_or_app; cbn; auto). apply (tiles_bounds _ _ _ _ B4) in Y. lia. }
  destruct (n_ste m') as [s'|] eqn:ST'; [|apply (Q1 m' I'); auto; destruct GE as [GE|[_ GE]]; [lia|]; subst; lia].
  assert (LE : tk_end x < s') by (eapply in_start_tag; eauto).
  destruct (SP m' I') as (S1' & S2' & S3'). rewrite ST' in S3'.
  destruct GE as [GE|[<- <-]].
  - destruct IN as (_ & _ & IN). specialize (IN m' I').
    assert (s' <= n_end m') by (destruct (n_ets m'); lia). lia.
  - assert (LE' : tk_end x < s) by (eapply (in_start_tag U t cs void roots HU HP n); eauto). lia.
Qed.

Variables (md : bool) (parts : list hover_participant) (providers : list provider) (lang : str).
Variables (ents : list (str * list N)) (opts : hover_settings).
Notation hov p := (do_hover U d cs md parts providers lang ents opts p roots).
Notation tag_hover := (get_tag_hover U cs md providers lang opts).
Notation attr_hover := (get_attr_hover md providers lang opts).
Notation value_hover := (get_attr_value_hover md parts providers lang opts).
Notation span k := (range_at d (tk_off k) (tk_end k)).

(** In a complete start tag. *)
Theorem C45_start_tag : forall p n x s, innermost roots (offset_at d p) n -> n_tag n = Some x ->
  n_ste n = Some s -> offset_at d p < s ->
  let o := offset_at d p in
  let on ty := exists k, start_tag_token n s k /\ touch ty o k in
  (* on the tag name *)
  (forall k, start_tag_token n s k -> touch StartTag o k -> hov p = Ok (tag_hover x (span k))) /\
  (* on an attribute name *)
  (forall k, start_tag_token n s k -> touch AttributeName o k -> ~ on StartTag ->
     hov p = Ok (attr_hover x (tk_text t k) (span k))) /\
  (* on an attribute value, not on a character reference in it *)
  (forall k, start_tag_token n s k -> touch AttributeValue o k -> ~ on StartTag -> ~ on AttributeName ->
     (forall a b, ~ entity_at t o a b) -> column_ok t o p ->
     exists before ka v, value_name before ka /\ unquoted (tk_text t k) v /\
       (forall k', In k' before <-> start_tag_token n s k' /\ tk_end k' <= tk_off k) /\
       StronglySorted (fun k1 k2 => tk_end k1 <= tk_off k2) before /\
       hov p = Ok (value_hover x (tk_text t ka) v (span k))) /\
  (* elsewhere *)
  (~ on StartTag -> ~ on AttributeName -> ~ on AttributeValue ->
     (forall a b, ~ entity_at t o a b) -> column_ok t o p ->
     hov p = Ok (first_some hp_content parts)).
Proof.
  intros p n x s IN X ST LO o on. fold o in IN, LO.
  destruct (find_at_innermost _ _ _ _ _ o HU HP) as [[_ N]|(n' & ps & FN & _ & Un)]; [exfalso; eapply N; eauto|].
  rewrite <- (Un n IN) in FN. clear n' Un. assert (I : In n (doc_nodes roots)) by apply IN.
  destruct (stt_runs n s I ST) as (m & z & R & M & E & BA & _ & OP). pose proof (Bd_le _ _ BA) as LA.
  assert (SO : n_start n <= o) by (destruct IN; lia).
  assert (EX : Exists (fun x => o < pos x) m) by (eapply Exists_impl; [|exact E]; cbn; lia).
  assert (BR : match n_ets n with Some e => if e <=? o then Some e else None | None => None end = None).
  { destruct (C12_spans _ _ _ _ _ HU HP) as [_ SP]. rewrite Forall_forall in SP. destruct (SP n I) as (_ & _ & S3).
    rewrite ST in S3. destruct (n_ets n) as [e|]; auto. replace (e <=? o) with false by lia. auto. }
  assert (HT : forall ty, ty <> EOS -> hover_token_range U d cs ty (n_start n) o =
     Ok (option_map (fun k => span k) (find (touchb ty o) (map token_of m)))).
  { intros ty NT. eapply token_range_eq; eauto. }
  assert (NO : forall ty, ~ on ty -> find (touchb ty o) (map token_of m) = None).
  { intros ty Q. apply find_no_touch. intros k K TK. apply Q. exists k. split; auto. apply M. auto. }
  assert (YES : forall ty k, solitary ty -> start_tag_token n s k -> touch ty o k ->
     find (touchb ty o) (map token_of m) = Some k).
  { intros ty k SL K TK. eapply find_touch; eauto. apply M. auto. }
  assert (GD : Good t (scanner_new (n_start n) WithinContent)) by (intros _; left; exact BA).
  pose proof (runs_bd U d cs HU m _ _ R GD) as TB. rewrite Forall_forall in TB.
  unfold do_hover. fold o. rewrite FN. cbn [bind]. rewrite X, BR. rewrite !HT by discriminate. cbn [bind].
  split; [|split; [|split]].
  - intros k K TK. rewrite (YES StartTag k); auto. left; auto.
  - intros k K TK N1. rewrite (NO StartTag N1), (YES AttributeName k); auto; [|right; left; auto].
    cbn [option_map]. destruct (content_token k) as [-> _].
    + apply TB. apply M. auto.
    + destruct TK as [-> _]. unfold text_token. auto.
    + reflexivity.
  - intros k K TK N1 N2 NE CO. rewrite (NO StartTag N1), (NO AttributeName N2). cbn [option_map].
    rewrite entity_range_none; auto; [|apply (do_offset d HD)]. cbn [bind].
    rewrite (YES AttributeValue k); auto; [|right; right; auto]. cbn [option_map].
    destruct (content_token k) as [-> ->].
    { apply TB. apply M. auto. } { destruct TK as [-> _]. unfold text_token. auto. }
    cbn [bind]. assert (IK : In k (map token_of m)) by (apply M; auto).
    apply in_map_iff in IK as (y & Y1 & Y2). apply in_split in Y2 as (m1 & m2 & ->).
    assert (TY : tok y = AttributeValue) by (destruct TK as [TK _]; rewrite <- Y1 in TK; exact TK).
    destruct (runs_value_name U d cs HU _ [] _ _ R) with (m1 := m1) (k := y) (m2 := m2) as (ka & KA); auto.
    { cbn. intros [?|?]; discriminate. }
    cbn [app] in KA. exists (map token_of m1), ka, (trim_quotes (tk_text t k)). split; auto. split; [apply trim_unquoted|]. 
    assert (R' := R). apply runs_app in R' as (g & G1 & G2). apply runs_inv in G2 as (S2 & NE2 & G3).
    destruct (step_kind _ _ _ _ _ HU S2 NE2) as (D1 & D2 & D3 & _).
    assert (F1 : Forall (fun x => pos x <= tok_off y) m1).
    { rewrite D3. clear - G1 HU. induction G1 as [|a b m f S NE G IH]; constructor; auto. apply (runs_pos _ _ _ _ _ _ _ HU G). }
    assert (F2 : Forall (fun x => pos y <= tok_off x) m2).
    { eapply Forall_impl; [|apply (runs_after U t cs HU _ _ _ G3)]. cbn. lia. }
    split.
    { intros k'. rewrite <- M, map_app. cbn [map]. rewrite <- Y1. cbn [token_of tk_off tk_end].
      split.
      - intros K'. split; [apply in_or_app; auto|]. apply in_map_iff in K' as (u & <- & Iu).
        rewrite Forall_forall in F1. apply (F1 u Iu).
      - intros [K' L']. apply in_app_iff in K' as [K'|[<-|K']]; auto.
        + cbn in L'. lia.
        + exfalso. apply in_map_iff in K' as (u & <- & Iu). rewrite Forall_forall in F2. pose proof (F2 u Iu).
          pose proof (runs_after U t cs HU _ _ _ G3) as RA. rewrite Forall_forall in RA. specialize (RA u Iu). cbn in L'. lia. }
    split.
    { clear - G1 HU. induction G1 as [|a b m f S NE G IH]; cbn [map]; constructor; auto.
      apply Forall_map. eapply Forall_impl; [|apply (runs_after U t cs HU _ _ _ G)]. cbn. lia. }
    rewrite <- Y1. cbn [token_of tk_off].
    unfold scan_attr_and_attr_value. destruct m1 as [|y1 m1].
    { exfalso. destruct KA as (l1 & l2 & Q & _). destruct l1; discriminate. }
    cbn [app] in R. assert (R2 : runs U t false cs (scanner_new (n_start n) WithinContent) (y1 :: (m1 ++ [y])) y).
    { clear - G1 S2 NE2. apply runs_inv in G1 as (S & NE & G). constructor; auto.
      assert (Q : forall m sc f, runs U t false cs sc m f -> scan U t false cs f = Ok y -> runs U t false cs sc (m ++ [y]) y).
      { induction m as [|u m IH]; intros sc f G' S'; inversion G'; subst; cbn [app].
        - constructor; auto. constructor.
        - constructor; eauto. }
      eapply Q; eauto. }
    apply runs_inv in R2 as (S1 & NE1 & R2). rewrite S1. cbn [bind].
    rewrite (attr_before_eq (tok_off y) m1 y1 y (scan_fuel t) None y); auto.
    + cbn [bind]. cbn [map] in KA.
      assert (T1 : tok y1 = StartTagOpen).
      { destruct OP as (op & tl & Q & Q'). cbn [app map] in Q. injection Q as Q _. subst op. exact Q'. }
      replace (name_fold (map token_of m1) None) with (Some (tk_text t ka)); auto.
      symmetry. rewrite <- (value_name_fold _ ka None KA). unfold name_fold. cbn [fold_left token_of tk_type].
      rewrite T1. reflexivity.
    + apply Forall_forall. intros u Hu. apply TB. rewrite map_app. apply in_or_app. left. cbn [map]. right. auto.
    + inversion F1; auto.
    + inversion F1; auto.
    + lia.
    + congruence.
    + pose proof (runs_length U t cs HU _ _ _ R ltac:(cbn; lia)) as RL. cbn [length] in RL. rewrite app_length in RL. cbn in RL.
      unfold scan_fuel. lia.
  - intros N1 N2 N3 NE CO. rewrite (NO StartTag N1), (NO AttributeName N2). cbn [option_map].
    rewrite entity_range_none; auto; [|apply (do_offset d HD)]. cbn [bind].
    rewrite (NO AttributeValue N3). reflexivity.
Qed.

(** ** Character references *)
(** What is said about the reference whose letters and digits are at [a, b). *)
Definition reference_hover (a b : nat) (r : range) : option hover :=
  match assoc (sub t a b ++ bs ";") ents with
  | Some v => Some (mkHover (HMarkup (mkMarkup PlainText (entity_text v))) (Some r))
  | None => None
  end.
(** Its range, in the line of the cursor. *)
Definition reference_range (p : position) (o a b : nat) : range :=
  mkRange (mkPos (line p) (character p - (o - a))) (mkPos (line p) (character p - (o - a) + (entity_end t b - a))).
Lemma entity_hover_eq o a b r : entity_at t o a b -> get_entity_hover d md ents r o = Ok (reference_hover a b r).
Proof.
  intros E. unfold get_entity_hover. rewrite (filter_entity_eq d o a b E). cbn [bind]. f_equal. unfold reference_hover.
  assert (CP : forall v, convert_contents md (HMarkup (mkMarkup PlainText v)) = HMarkup (mkMarkup PlainText v)).
  { intros v. unfold convert_contents. destruct md; reflexivity. }
  assert (Q : forall y, beq (bs "&" ++ sub t a b ++ bs ";") (bs "&" ++ y) = beq (sub t a b ++ bs ";") y).
  { intros y. reflexivity. }
  induction ents as [|[y v] l IH]; cbn [first_some assoc fst snd]; auto. rewrite Q, CP.
  destruct (beq (sub t a b ++ bs ";") y); auto.
Qed.
(** In a start tag, off the tag name and the attribute names, in particular in the
    values of attributes, and in the content. *)
Theorem C45_reference : forall p n x s a b, innermost roots (offset_at d p) n -> n_tag n = Some x -> n_ste n = Some s ->
  let o := offset_at d p in
  (forall e, n_ets n = Some e -> o < e) ->
  (if o <? s then ~ (exists k, start_tag_token n s k /\ (touch StartTag o k \/ touch AttributeName o k))
   else complete_tags n o) ->
  entity_at t o a b -> o - a <= character p ->
  hov p = Ok (reference_hover a b (reference_range p o a b)).
Proof.
  intros p n x s a b IN X ST o NE Q E C. fold o in IN.
  destruct (find_at_innermost _ _ _ _ _ o HU HP) as [[_ N]|(n' & ps & FN & _ & Un)]; [exfalso; eapply N; eauto|].
  rewrite <- (Un n IN) in FN. clear n' Un. assert (I : In n (doc_nodes roots)) by apply IN.
  assert (HT : forall ty, ty = StartTag \/ ty = AttributeName -> hover_token_range U d cs ty (n_start n) o = Ok None).
  { intros ty TY. destruct (o <? s) eqn:OS.
    - destruct (stt_runs n s I ST) as (m & z & R & M & EX & BA & _ & _).
      rewrite (token_range_eq ty (n_start n) o m z); auto.
      + rewrite find_no_touch; auto. intros k K TK. apply Q. exists k. split; [apply M; auto|].
        destruct TY as [-> | ->]; auto.
      + destruct TY as [-> | ->]; discriminate.
      + destruct IN; lia.
      + apply Bd_le; auto.
      + eapply Exists_impl; [|exact EX]. cbn. lia.
    - eapply content_quiet; eauto; [lia|]. unfold tag_part. tauto. }
  unfold do_hover. fold o. rewrite FN. cbn [bind]. rewrite X.
  replace (match n_ets n with Some e => if e <=? o then Some e else None | None => None end) with (@None nat).
  2:{ destruct (n_ets n) as [e|]; auto. specialize (NE e eq_refl). replace (e <=? o) with false by lia. auto. }
  rewrite !HT by auto. cbn [bind].
  rewrite (entity_range_some d p o a b E C). cbn [bind]. apply entity_hover_eq. auto.
Qed.
(** With positions in lines and UTF-16 columns, the range of a reference is that of
    the text from the first letter through the semicolon, if there is one. *)
Theorem C45_reference_range : forall o a b, d = utf16_doc t -> o <= length t ->
  entity_at t o a b -> reference_range (position_at d o) o a b = range_at d a (entity_end t b) /\
  is_boundary t a = true /\ is_boundary t (entity_end t b) = true /\ a <= o <= entity_end t b.
Proof.
  intros o a b DD L E. destruct (utf16_entity_range t o (position_at d o) a b HU L) as (R & B1 & B2); auto; [congruence|].
  rewrite <- DD in R. split; [|split; auto; split; auto].
  - assert (C : o - a <= character (position_at d o)).
    { rewrite DD. apply (utf16_column t o); auto.
      - assert (E' := E). destruct E' as (A0 & A1 & A2 & A3 & A4). destruct (Nat.eq_dec a o) as [<-|NEQ]; auto.
        destruct (A3 (o - 1)) as (c & C & C'); [lia|]. apply Bd_boundary. replace o with (o - 1 + 1) by lia.
        eapply Bd_after_ascii; eauto. unfold alnum in C'. lia.
      - cbn. destruct E; lia.
      - destruct E as (_ & A1 & _ & A3 & _). intros i Hi. apply A3. lia. }
    rewrite (entity_range_some d _ o a b E C) in R. apply Ok_inj, Some_inj in R. exact R.
  - destruct E as (_ & A1 & _). destruct (entity_end_le t b). lia.
Qed.

(** In the content, off references: the participants decide. *)
Theorem C45_content : forall p n x s, innermost roots (offset_at d p) n -> n_tag n = Some x -> n_ste n = Some s ->
  let o := offset_at d p in
  s <= o -> (forall e, n_ets n = Some e -> o < e) -> complete_tags n o ->
  (forall a b, ~ entity_at t o a b) -> column_ok t o p ->
  hov p = Ok (first_some hp_content parts).
Proof.
  intros p n x s IN X ST o LS NE Q E C. fold o in IN.
  destruct (find_at_innermost _ _ _ _ _ o HU HP) as [[_ N]|(n' & ps & FN & _ & Un)]; [exfalso; eapply N; eauto|].
  rewrite <- (Un n IN) in FN. clear n' Un.
  unfold do_hover. fold o. rewrite FN. cbn [bind]. rewrite X.
  replace (match n_ets n with Some e => if e <=? o then Some e else None | None => None end) with (@None nat).
  2:{ destruct (n_ets n) as [e|]; auto. specialize (NE e eq_refl). replace (e <=? o) with false by lia. auto. }
  rewrite !(content_quiet n s o) by (auto; unfold tag_part; tauto). cbn [bind].
  rewrite entity_range_none by (auto; apply (do_offset d HD)). cbn [bind].
  reflexivity.
Qed.

(** ** End tags *)
Lemma end_tag_runs e b' e' p2 z : is_prefix (bs "</") (skipn e t) = true -> ws_run t (e + 2) b' -> elem_name U t b' e' ->
  ws_run t e' p2 -> nth_error t p2 = Some GT /\ z = p2 + 1 \/ nth_error t p2 = Some LT /\ z = p2 ->
  exists m f, runs U t false cs (scanner_new e WithinContent) m f /\
    Exists (fun x => z <= pos x) m /\
    exists l1 k l2, map token_of m = l1 ++ k :: l2 /\ tk_type k = EndTag /\ tk_off k = b' /\ tk_end k = e' /\
      Forall (fun k => tk_type k <> EndTag) (l1 ++ l2).
Proof.
  intros P W1 N W2 Z.
  destruct (bd_elem U t HU _ _ N) as [B1 B2]. assert (N' := N). destruct N' as (N1 & N2 & _).
  destruct (name_first U t b' e' HU N) as (c & C & NC & _).
  pose proof (prefix_nth _ _ _ P) as PN.
  assert (P0 : nth_error t e = Some LT /\ nth_error t (e + 1) = Some SLASH).
  { split.
    - specialize (PN 0 ltac:(cbn; lia)). rewrite Nat.add_0_r in PN. exact PN.
    - specialize (PN 1 ltac:(cbn; lia)). exact PN. }
  destruct P0 as [P0 P1].
  assert (BE : Bd t e) by (eapply Bd_at_ascii; eauto; reflexivity).
  assert (BE2 : Bd t (e + 2)).
  { replace (e + 2) with (e + 1 + 1) by lia. eapply Bd_after_ascii; eauto; reflexivity. }
  set (y1 := finish (scanner_new e WithinContent) e EndTagOpen None (e + 2) AfterOpeningEndTag).
  assert (S1 : scan U t false cs (scanner_new e WithinContent) = Ok y1).
  { apply outcome_scan; auto; [|discriminate]. apply O_end_tag_open; auto. left. reflexivity. }
  (* white space before the name *)
  assert (M1 : exists m1 y2, runs U t false cs y1 m1 y2 /\ pos y2 = b' /\ st y2 = AfterOpeningEndTag /\
     Forall (fun k => tk_type k <> EndTag) (map token_of m1)).
  { destruct (Nat.eq_dec (e + 2) b') as [Q|Q].
    - exists [], y1. split; [constructor|]. repeat split; auto; constructor.
    - assert (L : e + 2 < b') by (destruct W1; lia).
      exists [finish y1 (e + 2) Whitespace (Some ErrNameMustFollow) b' AfterOpeningEndTag], (finish y1 (e + 2) Whitespace (Some ErrNameMustFollow) b' AfterOpeningEndTag).
      split; [constructor; [|discriminate|constructor]|].
      + apply outcome_scan; auto; [|discriminate]. apply (O_end_tag_ws U t false cs y1); auto.
        eapply skip_ws_run; eauto.
      + repeat split; auto. constructor; [discriminate|constructor]. }
  destruct M1 as (m1 & y2 & R1 & Q1 & Q2 & F1).
  set (y3 := finish y2 (pos y2) EndTag None e' WithinEndTag).
  assert (S3 : scan U t false cs y2 = Ok y3).
  { apply outcome_scan; auto; [|left; rewrite Q1; auto|discriminate]. apply (O_end_tag U t false cs y2); auto. rewrite Q1. auto. }
  assert (M2 : exists m2 y4, runs U t false cs y3 m2 y4 /\ pos y4 = p2 /\ st y4 = WithinEndTag /\
     Forall (fun k => tk_type k <> EndTag) (map token_of m2)).
  { destruct (Nat.eq_dec e' p2) as [Q|Q].
    - exists [], y3. split; [constructor|]. repeat split; auto; constructor.
    - assert (L : e' < p2) by (destruct W2; lia).
      exists [finish y3 e' Whitespace None p2 WithinEndTag], (finish y3 e' Whitespace None p2 WithinEndTag).
      split; [constructor; [|discriminate|constructor]|].
      + apply outcome_scan; auto; [|discriminate].
        * apply (O_end_tag_ws2 U t false cs y3); auto.
          destruct Z as [[Z _]|[Z _]]; eapply skip_ws_run; eauto.
      + repeat split; auto. constructor; [discriminate|constructor]. }
  destruct M2 as (m2 & y4 & R2 & Q3 & Q4 & F2).
  assert (M3 : exists m3 y5, runs U t false cs y4 m3 y5 /\ Forall (fun k => tk_type k <> EndTag) (map token_of m3) /\
     (z <= p2 \/ Exists (fun x => z <= pos x) m3)).
  { destruct Z as [[Z1 Z2]|[Z1 Z2]].
    - exists [finish y4 (pos y4) EndTagClose None (pos y4 + 1) WithinContent], (finish y4 (pos y4) EndTagClose None (pos y4 + 1) WithinContent).
      split; [constructor; [|discriminate|constructor]|].
      + apply outcome_scan; auto; [| |discriminate].
        * apply (O_end_tag_close U t false cs y4); auto. rewrite Q3. auto.
        * right. rewrite Q4. unfold in_tag_state. auto.
      + split; [constructor; [discriminate|constructor]|]. right. left. cbn. lia.
    - exists [], y4. split; [constructor|]. split; [constructor|]. left. lia. }
  destruct M3 as (m3 & y5 & R3 & F3 & Z3).
  assert (RA : forall a m g m' f, runs U t false cs a m g -> runs U t false cs g m' f -> runs U t false cs a (m ++ m') f).
  { intros a m g m' f G G'. induction G; cbn [app]; auto. constructor; auto. }
  exists ((y1 :: m1) ++ (y3 :: m2) ++ m3), y5. split; [|split].
  - apply RA with y2; [constructor; auto; discriminate|]. apply RA with y4; auto. constructor; auto; discriminate.
  - apply Exists_app. right. destruct Z3 as [Z3|Z3]; [|apply Exists_app; right; auto].
    apply Exists_app. left. assert (EX : forall a m g, runs U t false cs a m g -> z <= pos g -> Exists (fun x => z <= pos x) (a :: m)).
    { intros a m g G. induction G as [a|a a' m g S NE G IH]; intros LE; [left; auto|]. right. apply IH. auto. }
    eapply EX; eauto. lia.
  - exists (token_of y1 :: map token_of m1), (token_of y3), (map token_of m2 ++ map token_of m3).
    split; [rewrite !map_app; cbn [map app]; reflexivity|]. cbn [token_of tk_type tk_off tk_end y3 finish tok tok_off pos].
    repeat split; auto. cbn [app]. constructor; [discriminate|]. apply Forall_app. split; auto. apply Forall_app. auto.
Qed.
Theorem C45_end_tag : forall p n x e, innermost roots (offset_at d p) n -> n_tag n = Some x -> n_ets n = Some e ->
  let o := offset_at d p in e <= o ->
  exists b' e', end_name_at U d e b' e' /\ e + 2 <= b' /\
    (b' <= o <= e' -> hov p = Ok (tag_hover x (range_at d b' e'))) /\
    (o < b' \/ e' < o -> hov p = Ok None).
Proof.
  intros p n x e IN X ET o LE. fold o in IN.
  destruct (find_at_innermost _ _ _ _ _ o HU HP) as [[_ N]|(n' & ps & FN & _ & Un)]; [exfalso; eapply N; eauto|].
  rewrite <- (Un n IN) in FN. clear n' Un. assert (I : In n (doc_nodes roots)) by apply IN.
  destruct (node_names _ _ _ _ _ _ _ HU HP I X) as (_ & _ & EN).
  destruct (EN e ET) as (y & b' & e' & p2 & F1 & F2 & F3 & F4 & F5 & F6 & F7).
  destruct (end_tag_runs e b' e' p2 (n_end n) F1 F2 F3 F6 F7) as (m & f & R & EX & l1 & k & l2 & M & K1 & K2 & K3 & FA).
  exists b', e'. split; [split; [apply (prefix_text t (bs "</")); auto|]; split; auto; eapply elem_name_text; eauto|].
  split; [destruct F2; lia|].
  unfold do_hover. fold o. rewrite FN. cbn [bind]. rewrite X, ET. replace (e <=? o) with true by lia.
  destruct (C12_spans _ _ _ _ _ HU HP) as [_ SP]. rewrite Forall_forall in SP. destruct (SP n I) as (S1 & S2 & S3).
  rewrite (token_range_eq EndTag e o m f); auto; [|discriminate|destruct IN as (_ & ? & _); lia|].
  2:{ eapply Exists_impl; [|exact EX]. cbn. destruct IN as (_ & ? & _). lia. }
  cbn [bind]. rewrite M. apply Forall_app in FA as [FA FB]. rewrite Forall_forall in FA, FB.
  split; intros L.
  - assert (Q : find (touchb EndTag o) (l1 ++ k :: l2) = Some k).
    { clear - FA K1 K2 K3 L. induction l1 as [|u l1 IH]; cbn [app find].
      - replace (touchb EndTag o k) with true; auto. symmetry. apply touchb_spec. split; auto. lia.
      - destruct (touchb EndTag o u) eqn:TU.
        + exfalso. apply touchb_spec in TU as [TU _]. apply (FA u); cbn; auto.
        + apply IH. intros w W. apply FA. cbn. auto. }
    rewrite Q. cbn [option_map]. rewrite K2, K3. reflexivity.
  - rewrite find_no_touch; auto. intros u Hu [TU TO].
    apply in_app_iff in Hu as [Hu|[<-|Hu]]; [apply (FA u); auto|lia|apply (FB u); auto].
Qed.

(** ** Soundness: whatever the document and the cursor *)
(** The range of a hover that does not come from a participant is that of a token with
    the cursor on it, or of a character reference around the cursor. *)
Theorem C45_sound : forall p h, parts = [] -> hov p = Ok (Some h) ->
  let o := offset_at d p in
  (exists a b, a <= o <= b /\ is_boundary t a = true /\ is_boundary t b = true /\ h_range h = Some (range_at d a b)) \/
  (exists a b, entity_at t o a b /\ h_range h = Some (reference_range p o a b)).
Proof.
  intros p h NP H o.
  destruct (find_at_innermost _ _ _ _ _ o HU HP) as [[FN _]|(n & ps & FN & IN & _)];
    unfold do_hover in H; fold o in H; rewrite FN in H; cbn [bind] in H; [discriminate|].
  destruct (n_tag n) as [x|]; [|discriminate]. assert (I : In n (doc_nodes roots)) by apply IN.
  assert (RT : forall ty s r, (ty = StartTag \/ ty = EndTag \/ ty = AttributeName \/ ty = AttributeValue) -> s <= o -> Bd t s ->
     hover_token_range U d cs ty s o = Ok (Some r) ->
     exists a b, a <= o <= b /\ is_boundary t a = true /\ is_boundary t b = true /\ r = range_at d a b).
  { intros ty s r TY L B Q. unfold hover_token_range in Q. apply bind_ok in Q as (z & Q & Q').
    destruct (token_eqb (tok z) ty && (o <=? pos z)) eqn:E; [|discriminate].
    apply Ok_inj, Some_inj in Q'. apply andb_true_iff in E as [E1 E2]. apply token_eqb_eq in E1.
    destruct (hover_scan_sound U d cs HU ty o _ _ _ Q L E1) as (m & R & LE).
    { destruct TY as [-> |[-> |[-> | ->]]]; discriminate. }
    assert (GD : Good t (scanner_new s WithinContent)) by (intros _; left; exact B).
    pose proof (runs_bd U d cs HU _ _ _ R GD) as TB. rewrite Forall_forall in TB.
    destruct (TB (token_of z)) as (B1 & B2 & B3).
    { rewrite map_app. apply in_or_app. right. cbn. auto. }
    { cbn [token_of tk_type]. unfold text_token. rewrite E1. tauto. }
    exists (tok_off z), (pos z). split; [lia|]. cbn in B1, B2. auto using Bd_boundary. }
  assert (TH : forall r h, tag_hover x r = Some h -> h_range h = Some r).
  { intros r h' Q. unfold get_tag_hover in Q.
    revert Q. induction (filter _ providers) as [|pv l IH]; cbn [first_some]; [discriminate|].
    destruct (fold_left _ _ _) as [h1|] eqn:F; [|exact IH]. intros Q. apply Some_inj in Q. subst h1.
    assert (GEN : forall tds acc, (forall h1, acc = Some h1 -> h_range h1 = Some r) ->
      forall h1, fold_left (fun h0 td => if same_tag U cs (t_name td) x then Some (tag_hover_of md opts r td) else h0) tds acc = Some h1 ->
      h_range h1 = Some r).
    { induction tds as [|td tds IH2]; cbn [fold_left]; intros acc A h1 Q; [auto|].
      eapply IH2; [|exact Q]. intros h2 Q2. destruct (same_tag U cs (t_name td) x); [|auto].
      apply Some_inj in Q2. subst h2. reflexivity. }
    eapply GEN; [|exact F]. discriminate. }
  assert (CH : forall r m h, content_hover md r m = Some h -> h_range h = Some r).
  { intros r [m|] h' Q; [|discriminate]. cbn in Q. apply Some_inj in Q. subst h'. reflexivity. }
  assert (AH : forall a r h, attr_hover x a r = Some h -> h_range h = Some r).
  { intros a r h' Q. unfold get_attr_hover in Q.
    revert Q. induction (filter _ providers) as [|pv l IH]; cbn [first_some]; [discriminate|].
    destruct (fold_left _ _ _) as [h1|] eqn:F; [|exact IH]. intros Q. apply Some_inj in Q. subst h1.
    assert (GEN : forall tds acc, (forall h1, acc = Some h1 -> h_range h1 = Some r) ->
      forall h1, fold_left (fun h0 ad => if beq a (a_name ad) && is_some (a_desc ad)
          then content_hover md r (doc_of md opts (a_desc ad) (a_refs ad)) else h0) tds acc = Some h1 ->
      h_range h1 = Some r).
    { induction tds as [|td tds IH2]; cbn [fold_left]; intros acc A h1 Q; [auto|].
      eapply IH2; [|exact Q]. intros h2 Q2. destruct (_ && _); [|auto]. eapply CH; eauto. }
    eapply GEN; [|exact F]. discriminate. }
  assert (VH : forall a v r h, value_hover x a v r = Some h -> h_range h = Some r).
  { intros a v r h' Q. unfold get_attr_value_hover in Q. rewrite NP in Q. cbn [first_some] in Q.
    revert Q. induction (filter _ providers) as [|pv l IH]; cbn [first_some]; [discriminate|].
    destruct (first_some _ (pv_values pv x a)) as [h1|] eqn:F; [|exact IH]. intros Q. apply Some_inj in Q. subst h1.
    revert F. induction (pv_values pv x a) as [|vd vs IH2]; cbn [first_some]; [discriminate|].
    destruct (_ && _); [|exact IH2]. destruct (content_hover md r _) as [h1|] eqn:CE; [|exact IH2].
    intros Q. apply Some_inj in Q. subst h1. eapply CH; eauto. }
  assert (BS : Bd t (n_start n)).
  { destruct (node_facts _ _ _ _ _ HU HP) as (l & _ & F). destruct (F n I). eapply Bd_at_ascii; eauto. reflexivity. }
  assert (LO : n_start n <= o) by (destruct IN; lia).
  destruct (match n_ets n with Some e => if e <=? o then Some e else None | None => None end) as [e|] eqn:EE.
  - destruct (n_ets n) as [e'|] eqn:ET; [|discriminate]. destruct (e' <=? o) eqn:LE; [|discriminate].
    apply Some_inj in EE. subst e'.
    apply bind_ok in H as (tr & T & H). apply Ok_inj in H. destruct tr as [r|]; [|discriminate].
    left. destruct (RT EndTag e r) as (a & b & L & B1 & B2 & ->); auto; [lia| |].
    { destruct (n_tag n) as [x'|] eqn:TX.
      - destruct (node_names _ _ _ _ _ _ _ HU HP I TX) as (_ & _ & EN). destruct (EN e ET) as (y & b' & e' & p2 & F1 & _).
        apply prefix_first in F1.
        eapply Bd_at_ascii; eauto. reflexivity.
      - destruct (node_facts _ _ _ _ _ HU HP) as (l & _ & F). destruct (F n I). destruct ok_close; try congruence.
        destruct H7 as (P & _). replace e0 with e in P by congruence.
        apply prefix_first in P.
        eapply Bd_at_ascii; eauto. reflexivity. }
    exists a, b. repeat split; auto; try lia.
  - apply bind_ok in H as (tr & T & H). destruct tr as [r|].
    { apply Ok_inj in H. left. destruct (RT StartTag (n_start n) r) as (a & b & L & B1 & B2 & ->); auto.
      exists a, b. repeat split; auto; lia. }
    apply bind_ok in H as (ar & A & H). destruct ar as [r|].
    { apply bind_ok in H as (w & _ & H). apply Ok_inj in H.
      left. destruct (RT AttributeName (n_start n) r) as (a & b & L & B1 & B2 & ->); auto.
      exists a, b. repeat split; auto; try lia. eapply AH; eauto. }
    apply bind_ok in H as (er & E & H).
    destruct (entity_dec t o) as [(a & b & X)|X]; [apply (do_offset d HD)| |].
    + right. exists a, b. split; auto.
      assert (C : o - a <= character p).
      { unfold get_entity_range in E. rewrite <- (proj1 (entity_bounds _ _ _ _ X)) in E.
        apply bind_ok in E as (c0 & E & _). unfold usub in E. destruct (o - a <=? character p) eqn:Q; [lia|discriminate]. }
      rewrite (entity_range_some d p o a b X C) in E. apply Ok_inj in E. subst er.
      rewrite (entity_hover_eq o a b _ X) in H. apply Ok_inj in H. unfold reference_hover in H.
      destruct (assoc _ ents); [|discriminate]. apply Some_inj in H. subst h. reflexivity.
    + destruct er as [r|].
      { exfalso. unfold get_entity_range in E. apply bind_ok in E as (c0 & _ & E). apply Ok_inj in E.
        destruct (alnum_left t o) as [|k] eqn:K; [discriminate|].
        destruct (nth_error t k) as [c|] eqn:B; [|discriminate]. destruct (c =? 38)%N eqn:Q; [|discriminate].
        apply N.eqb_eq in Q. subst c. destruct (alnum_left_spec t o) as (L1 & L2 & L3). rewrite K in *.
        destruct (alnum_run_spec t (S k)) as (R1 & R2 & R3).
        apply (X (S k) (S k + alnum_run (skipn (S k) t))). split; [lia|].
        split. { split; [lia|]. destruct (Nat.le_gt_cases o (S k + alnum_run (skipn (S k) t))) as [|Q]; auto. exfalso.
                 rewrite L2 in R2 by lia. discriminate. }
        replace (S k - 1) with k by lia. split; auto. split.
        - intros i Hi. apply alnum_at_spec. auto.
        - intros c C' AA. assert (alnum_at t (S k + alnum_run (skipn (S k) t)) = true) by (apply alnum_at_spec; eauto). congruence. }
      apply bind_ok in H as (vr & V & H). apply bind_ok in H as (hh & W & H). rewrite NP in H. cbn [first_some] in H.
      destruct hh as [hh|]; [|discriminate]. apply Ok_inj in H. subst hh.
      destruct vr as [r|]; [|discriminate]. apply bind_ok in W as (v & _ & W). apply bind_ok in W as (a0 & _ & W).
      apply Ok_inj in W. destruct a0 as [a0|]; [|discriminate]. apply Some_inj in W.
      left. destruct (RT AttributeValue (n_start n) r) as (a & b & L & B1 & B2 & ->); auto.
      exists a, b. repeat split; auto; try lia. eapply VH; eauto.
Qed.
End Main.
