(** * Consequences of the step description: progress, panics, resumption. *)
From Verif Require Import Base Stream Scanner BaseFacts ScannerFacts ScanStep.
From Coq Require Import ZifyBool ZifyNat ZifyN.

Section P.
Variable U : unicode.
Variable t : str.
Variable emit cs : bool.
Hypothesis HU : Utf8 t.
Notation scan := (scan U t emit cs).
Notation tokens := (tokens U t emit cs).
Notation len := (length t).

(** ** Fuel *)
Lemma adv_if_regexp_fuel m p : adv_if_regexp m t p <> OutOfFuel.
Proof.
  unfold adv_if_regexp. destruct (slice t p len) eqn:E; try discriminate.
  exfalso. eapply slice_no_fuel; eauto.
Qed.

Lemma bind_fuel {A B} (x : res A) (f : A -> res B) :
  x <> OutOfFuel -> (forall a, x = Ok a -> f a <> OutOfFuel) -> bind x f <> OutOfFuel.
Proof. destruct x; simpl; intros H1 H2; auto; try discriminate. Qed.

Lemma name_of_fuel m p : name_of U t cs m p <> OutOfFuel.
Proof.
  apply bind_fuel; [apply adv_if_regexp_fuel|]. discriminate.
Qed.

Lemma within_tag_fuel sc : scan_within_tag U t emit cs sc <> OutOfFuel.
Proof.
  unfold scan_within_tag, eos_or. destruct (eos t (pos sc)); [discriminate|].
  destruct (skip_ws t (pos sc)); [discriminate|].
  assert (R : forall sc p, scan_within_tag_rest t emit sc p <> OutOfFuel).
  { intros s p. unfold scan_within_tag_rest.
    destruct (adv_if_chars _ _ _); [discriminate|].
    destruct (adv_if_char _ _ _); [discriminate|].
    destruct (_ && _); discriminate. }
  destruct (has_space sc); [|apply R].
  apply bind_fuel; [apply name_of_fuel|]. intros [[n e]|] _; [discriminate|]. apply R.
Qed.

Lemma within_end_tag_fuel sc : scan_within_end_tag t emit sc <> OutOfFuel.
Proof.
  unfold scan_within_end_tag, eos_or. destruct (eos t (pos sc)); [discriminate|].
  destruct (skip_ws t (pos sc)); [discriminate|].
  destruct (adv_if_char _ _ _); [discriminate|]. destruct (_ && _); discriminate.
Qed.

Lemma content_fuel sc : scan_content t sc <> OutOfFuel.
Proof.
  unfold scan_content, eos_or. destruct (eos t (pos sc)); [discriminate|].
  destruct (adv_if_char t (pos sc) LT); [|discriminate].
  destruct (_ && _).
  - destruct (adv_if_chars _ _ _); [discriminate|].
    apply bind_fuel; [apply adv_if_regexp_fuel|]. intros [[? ?]|] _; [discriminate|].
    destruct (adv_if_char _ _ _); discriminate.
  - destruct (adv_if_char _ _ _); discriminate.
Qed.

Lemma quoted_fuel sc o p : scan_quoted U t emit cs sc o p <> OutOfFuel.
Proof.
  unfold scan_quoted. destruct (peek t p); [|apply within_tag_fuel].
  destruct (_ || _); [|apply within_tag_fuel].
  destruct (adv_until_char _ _ _). apply bind_fuel; [|discriminate].
  destruct (opt_beq _ _); [|discriminate].
  apply bind_fuel; [|discriminate]. destruct (_ <? _); apply slice_no_fuel.
Qed.

Lemma script_fuel p : script_loop t len 1 p <> OutOfFuel.
Proof.
  destruct (eos t p) eqn:E.
  { destruct len; cbn [script_loop]; rewrite E; discriminate. }
  apply eos_false in E. destruct (is_boundary t p) eqn:B.
  - apply boundary_Bd in B; auto; [|lia].
    destruct (script_loop_spec t HU len 1 p B ltac:(lia)) as (? & ? & -> & _). discriminate.
  - destruct len eqn:L; [lia|]. cbn [script_loop]. destruct (eos t p); [discriminate|].
    unfold adv_if_regexp. destruct (slice t p (length t)) as [r| |] eqn:S; try discriminate.
    + apply slice_rest in S. destruct S as (_ & S & _). congruence.
    + exfalso. eapply slice_no_fuel; eauto.
Qed.

Lemma scan_no_fuel sc : scan sc <> OutOfFuel.
Proof.
  rewrite (scan_internal U t emit cs HU). unfold internal_scan. destruct (st sc).
  - apply content_fuel.
  - unfold scan_after_opening_start_tag, eos_or. destruct (eos t (pos sc)); [discriminate|].
    apply bind_fuel; [apply name_of_fuel|]. intros [[n e]|] _; [discriminate|].
    destruct (skip_ws _ _); [discriminate|]. cbv zeta. destruct (_ <? _); [discriminate|].
    apply within_tag_fuel.
  - unfold scan_after_opening_end_tag, eos_or. destruct (eos t (pos sc)); [discriminate|].
    apply bind_fuel; [apply name_of_fuel|]. intros [[n e]|] _; [discriminate|].
    destruct (skip_ws _ _); [discriminate|]. cbv zeta. destruct (_ <? _); [discriminate|].
    apply within_end_tag_fuel.
  - unfold scan_doctype, eos_or. destruct (eos t (pos sc)), (adv_if_char t (pos sc) GT); discriminate.
  - apply within_tag_fuel.
  - apply within_end_tag_fuel.
  - unfold scan_comment, eos_or. destruct (eos t (pos sc)), (adv_if_chars t (pos sc) (bs "-->")); discriminate.
  - unfold scan_script, eos_or. destruct (eos t (pos sc)); [discriminate|].
    apply bind_fuel; [apply script_fuel|]. intros [[|] q] _; [discriminate|].
    destruct (_ <? _); [discriminate|apply content_fuel].
  - unfold scan_style, eos_or. destruct (eos t (pos sc)); [discriminate|].
    apply bind_fuel.
    + unfold adv_until_regexp. destruct (slice t (pos sc) len) eqn:E; try discriminate.
      exfalso. eapply slice_no_fuel; eauto.
    + intros p _. destruct (_ <? _); [discriminate|apply content_fuel].
  - unfold scan_after_attribute_name, eos_or. destruct (eos t (pos sc)); [discriminate|].
    destruct (skip_ws _ _); [discriminate|]. destruct (adv_if_char _ _ _); [discriminate|].
    apply within_tag_fuel.
  - unfold scan_before_attribute_value, eos_or. destruct (eos t (pos sc)); [discriminate|].
    destruct (skip_ws _ _); [discriminate|]. apply bind_fuel; [apply adv_if_regexp_fuel|].
    intros [[s e]|] _; [|apply quoted_fuel]. cbv zeta.
    apply bind_fuel.
    + destruct (match adv_if_char t e SQUOTE with Some p => _ | None => _ end);
        [apply slice_no_fuel|discriminate].
    + intros v _. destruct (0 <? _); [discriminate|apply quoted_fuel].
Qed.

(** ** Progress *)
Definition content_state (s : sstate) : bool :=
  match s with WithinContent | WithinScriptContent | WithinStyleContent => true | _ => false end.
Definition measure (sc : scanner) : nat :=
  if len <=? pos sc then 0
  else 2 * (len - pos sc) + (if content_state (st sc) then 0 else 1).

Lemma scan_progress sc sc' : scan sc = Ok sc' ->
  tok_off sc' = pos sc /\
  ((tok sc' = EOS /\ len <= pos sc /\ pos sc' = pos sc /\ st sc' = st sc) \/
   (tok sc' <> EOS /\ pos sc < pos sc' /\ pos sc' <= len) \/
   (emit = true /\ (tok sc' = StartTagClose \/ tok sc' = EndTagClose) /\ pos sc' = pos sc /\
    nth_error t (pos sc) = Some LT /\ st sc' = WithinContent /\
    st sc <> WithinContent /\ st sc <> WithinScriptContent /\ st sc <> WithinStyleContent)).
Proof. intros H. eapply outcome_progress, scan_outcome; eauto. Qed.

Lemma scan_eos_iff sc sc' : scan sc = Ok sc' -> tok sc' = EOS <-> len <= pos sc.
Proof.
  intros H. apply scan_progress in H as (_ & [H|[H|H]]); try (split; [intuition congruence|lia]).
  - intuition.
  - destruct H as (_ & [E|E] & _ & N & _); apply nth_error_lt in N; rewrite E; split; try discriminate; lia.
Qed.

Lemma scan_at_end sc : len <= pos sc -> scan sc = Ok (finish sc (pos sc) EOS None (pos sc) (st sc)).
Proof.
  intros H. rewrite (scan_internal U t emit cs HU). unfold internal_scan.
  assert (E : eos t (pos sc) = true) by (unfold eos; lia).
  destruct (st sc) eqn:S;
    unfold scan_content, scan_after_opening_start_tag, scan_after_opening_end_tag, scan_doctype,
      scan_within_tag, scan_within_end_tag, scan_comment, scan_script, scan_style,
      scan_after_attribute_name, scan_before_attribute_value, eos_or;
    rewrite E, ?S; auto.
Qed.

Lemma scan_measure sc sc' : scan sc = Ok sc' -> tok sc' <> EOS -> measure sc' < measure sc.
Proof.
  intros H N. pose proof (scan_eos_iff _ _ H) as E. apply scan_progress in H as (_ & [H|[H|H]]).
  - tauto.
  - unfold measure. destruct H as (_ & H1 & H2).
    destruct (content_state (st sc)), (content_state (st sc')); destruct (len <=? pos sc) eqn:A, (len <=? pos sc') eqn:B; lia.
  - unfold measure. destruct H as (_ & _ & -> & L & -> & S1 & S2 & S3). apply nth_error_lt in L.
    destruct (len <=? pos sc) eqn:A; [lia|]. destruct (st sc); simpl; try congruence; lia.
Qed.

Lemma tokens_no_fuel fuel sc : 1 <= fuel -> measure sc <= fuel -> tokens fuel sc <> OutOfFuel.
Proof.
  revert sc. induction fuel as [|fuel IH]; intros sc H0 H; [lia|].
  cbn [Scanner.tokens]. apply bind_fuel; [apply scan_no_fuel|]. intros sc' S.
  destruct (token_eqb (tok sc') EOS) eqn:E; [discriminate|]. apply token_eqb_neq in E.
  pose proof (scan_measure _ _ S E). pose proof (scan_eos_iff _ _ S) as Q.
  assert (2 <= measure sc).
  { unfold measure. destruct (len <=? pos sc) eqn:A; [exfalso; apply E, Q; lia|]. lia. }
  apply bind_fuel; [apply IH; lia|]. intros [? ?] _. discriminate.
Qed.

(** One token takes at least two units of the measure when it is the last one. *)
Lemma tokens_count fuel sc l f : tokens fuel sc = Ok (l, f) -> length l <= 2 * (len - pos sc).
Proof.
  assert (G : forall fuel sc l f, tokens fuel sc = Ok (l, f) -> l = [] \/ length l < measure sc).
  { clear - HU. induction fuel as [|fuel IH]; intros sc l f H; [discriminate|].
    cbn [Scanner.tokens] in H. apply bind_ok in H as (sc' & S & H).
    destruct (token_eqb (tok sc') EOS) eqn:E; [inv H; auto|]. apply token_eqb_neq in E.
    apply bind_ok in H as ([l' f'] & T & H). inv H. right. simpl.
    pose proof (scan_measure _ _ S E) as M. apply IH in T as [->|T]; [|lia].
    pose proof (scan_eos_iff _ _ S) as Q.
    unfold measure. destruct (len <=? pos sc) eqn:A; [exfalso; apply E, Q; lia|].
    simpl. lia. }
  intros H. apply G in H as [->|H]; [simpl; lia|]. unfold measure in H.
  destruct (len <=? pos sc) eqn:A; [lia|]. destruct (content_state (st sc)); lia.
Qed.

Lemma tokens_mono fuel sc l f : tokens fuel sc = Ok (l, f) ->
  forall fuel', fuel <= fuel' -> tokens fuel' sc = Ok (l, f).
Proof.
  revert sc l f. induction fuel as [|fuel IH]; intros sc l f H fuel' L; [discriminate|].
  destruct fuel' as [|fuel']; [lia|]. cbn [Scanner.tokens] in *.
  apply bind_ok in H as (sc' & S & H). rewrite S. cbn [bind].
  destruct (token_eqb (tok sc') EOS); auto.
  apply bind_ok in H as ([l' f'] & T & H). rewrite (IH _ _ _ T) by lia. auto.
Qed.

(** ** Tiling *)
Fixpoint tiles (a : nat) (l : list token) (b : nat) : Prop :=
  match l with
  | [] => a = b
  | k :: l' => tk_off k = a /\ a <= tk_end k /\ tk_end k <= b /\ tiles (tk_end k) l' b
  end.

Lemma tokens_tile fuel sc l f :
  tokens fuel sc = Ok (l, f) -> pos sc <= len -> tiles (pos sc) l len /\ pos f = len.
Proof.
  revert sc l f. induction fuel as [|fuel IH]; intros sc l f H L; [discriminate|].
  cbn [Scanner.tokens] in H. apply bind_ok in H as (sc' & S & H).
  pose proof (scan_progress _ _ S) as (O & P).
  destruct (token_eqb (tok sc') EOS) eqn:E.
  - inv H. apply token_eqb_eq in E. simpl.
    assert (len <= pos sc) by (apply (scan_eos_iff _ _ S); auto).
    destruct P as [P|[P|P]]; intuition (try congruence); try lia.
  - apply token_eqb_neq in E. apply bind_ok in H as ([l' f'] & T & H). inv H.
    assert (pos sc <= pos sc' /\ pos sc' <= len) by (destruct P as [P|[P|P]]; intuition lia).
    apply IH in T as [T1 T2]; [|lia]. simpl. intuition.
Qed.

Lemma tiles_le a l b : tiles a l b -> a <= b.
Proof. destruct l as [|k l]; simpl; intuition lia. Qed.

Lemma tiles_concat l a b : tiles a l b ->
  List.concat (map (fun k => sub t (tk_off k) (tk_end k)) l) = sub t a b.
Proof.
  revert a. induction l as [|k l IH]; intros a H; simpl in *.
  - subst. rewrite sub_nil. auto.
  - destruct H as (H1 & H2 & H3 & H4). rewrite (IH _ H4). subst a.
    symmetry. apply sub_split; auto.
Qed.
End P.
