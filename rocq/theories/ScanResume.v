(** * A scan can be resumed from any token boundary outside a start tag. *)
From Verif Require Import Base Stream Scanner BaseFacts ScannerFacts ScanStep ScanProps.
From Coq Require Import ZifyBool ZifyNat ZifyN.

(** States in which the scanner is inside a start tag. *)
Definition in_start_tag (s : sstate) : bool :=
  match s with WithinTag | AfterAttributeName | BeforeAttributeValue => true | _ => false end.

Section P.
Variable U : unicode.
Variable t : str.
Variable emit cs : bool.
Hypothesis HU : Utf8 t.
Notation scan := (scan U t emit cs).
Notation tokens := (tokens U t emit cs).
Notation len := (length t).

(** Same observable position; the hidden fields agree where they matter. *)
Definition sim (a b : scanner) : Prop :=
  st a = st b /\ pos a = pos b /\
  (in_start_tag (st a) = true ->
     last_tag a = last_tag b /\ last_attr a = last_attr b /\ last_type a = last_type b /\
     (has_space a = has_space b \/
      (st a = WithinTag /\ last_attr a = None /\ (len <= pos a \/ nth_error t (pos a) = Some GT)))).

Definition sim_res (x y : res scanner) : Prop :=
  match x, y with
  | Ok a, Ok b => sim a b /\ token_of a = token_of b
  | Panic r, Panic r' => r = r'
  | OutOfFuel, OutOfFuel => True
  | _, _ => False
  end.

Lemma sim_finish a b o tk er p s :
  (in_start_tag s = true ->
     last_tag a = last_tag b /\ last_attr a = last_attr b /\ last_type a = last_type b /\
     (has_space a = has_space b \/
      (s = WithinTag /\ last_attr a = None /\ (len <= p \/ nth_error t p = Some GT)))) ->
  sim_res (Ok (finish a o tk er p s)) (Ok (finish b o tk er p s)).
Proof. intros H. split; [|reflexivity]. split; [|split]; auto. Qed.

Lemma sim_finish_out a b o tk er p s : in_start_tag s = false ->
  sim_res (Ok (finish a o tk er p s)) (Ok (finish b o tk er p s)).
Proof. intros H. apply sim_finish. rewrite H. discriminate. Qed.

Lemma sim_bind {A} (x : res A) f g :
  (forall a, x = Ok a -> sim_res (f a) (g a)) -> sim_res (bind x f) (bind x g).
Proof. destruct x; simpl; auto. Qed.

Lemma sim_eos a b f g :
  sim a b -> (pos a < len -> sim_res (f (pos a)) (g (pos a))) -> sim_res (eos_or t a f) (eos_or t b g).
Proof.
  intros (H1 & H2 & H3) K. unfold eos_or. rewrite <- H2, <- H1.
  destruct (eos t (pos a)) eqn:E; [apply sim_finish; auto|]. apply K. unfold eos in E. lia.
Qed.

Lemma sim_content a b : st a = st b -> st a = WithinContent -> pos a = pos b -> sim_res (scan_content t a) (scan_content t b).
Proof.
  intros Hs Hw Hp. unfold scan_content. apply sim_eos.
  { repeat split; auto; rewrite Hw in *; discriminate. }
  intros L. destruct (adv_if_char t (pos a) LT) as [p|].
  - assert (R : sim_res
      match adv_if_char t p SLASH with
      | Some q => Ok (finish a (pos a) EndTagOpen None q AfterOpeningEndTag)
      | None => Ok (finish a (pos a) StartTagOpen None p AfterOpeningStartTag)
      end
      match adv_if_char t p SLASH with
      | Some q => Ok (finish b (pos a) EndTagOpen None q AfterOpeningEndTag)
      | None => Ok (finish b (pos a) StartTagOpen None p AfterOpeningStartTag)
      end) by (destruct (adv_if_char t p SLASH); apply sim_finish_out; auto).
    destruct (_ && _); auto. destruct (adv_if_chars t p (bs "!--")); [apply sim_finish_out; auto|].
    apply sim_bind. intros [[? ?]|] _; auto. apply sim_finish_out; auto.
  - rewrite <- Hs, Hw. apply sim_finish_out. auto.
Qed.

Lemma sim_end_tag a b : st a = st b -> in_start_tag (st a) = false -> pos a = pos b ->
  sim_res (scan_within_end_tag t emit a) (scan_within_end_tag t emit b).
Proof.
  intros Hs Hi Hp. unfold scan_within_end_tag. apply sim_eos.
  { repeat split; auto; congruence. }
  intros L. rewrite <- Hs. destruct (skip_ws t (pos a)); [apply sim_finish_out; auto|].
  destruct (adv_if_char t (pos a) GT); [apply sim_finish_out; auto|].
  destruct (_ && _); apply sim_finish_out; auto.
Qed.

Lemma sim_rest a b p :
  st a = WithinTag -> st b = WithinTag ->
  last_tag a = last_tag b -> last_attr a = last_attr b -> last_type a = last_type b ->
  (has_space a = has_space b \/ nth_error t p = Some GT) ->
  sim_res (scan_within_tag_rest t emit a p) (scan_within_tag_rest t emit b p).
Proof.
  intros Sa Sb H1 H2 H3 H4. unfold scan_within_tag_rest.
  destruct (adv_if_chars t p (bs "/>")); [apply sim_finish_out; auto|].
  destruct (adv_if_char t p GT) eqn:G.
  { rewrite <- H1, <- H3. apply sim_finish_out.
    destruct (opt_beq _ _); [destruct (last_type a)|destruct (opt_beq _ _)]; auto. }
  apply adv_if_char_none in G.
  destruct (_ && _); [apply sim_finish_out; auto|]. rewrite Sa, Sb.
  apply sim_finish. intros _. repeat split; auto. destruct H4 as [H4|H4]; [auto|tauto].
Qed.

Lemma gt_no_name p : nth_error t p = Some GT -> next_attribute_name U t cs p = Ok None.
Proof.
  intros G. unfold next_attribute_name, name_of, adv_if_regexp.
  rewrite slice_rest_ok.
  - cbn [bind]. rewrite (skipn_cons _ _ _ G). reflexivity.
  - apply nth_error_lt in G. lia.
  - eapply boundary_byte; eauto. reflexivity.
Qed.

Lemma sim_within_tag a b : sim a b -> st a = WithinTag ->
  sim_res (scan_within_tag U t emit cs a) (scan_within_tag U t emit cs b).
Proof.
  intros HS Sa. unfold scan_within_tag. apply sim_eos; auto. intros L.
  destruct HS as (S1 & S2 & S3). rewrite Sa in S1. specialize (S3 ltac:(rewrite Sa; auto)).
  destruct S3 as (T1 & T2 & T3 & T4). rewrite <- ?S1, ?Sa.
  destruct (skip_ws t (pos a)) as [p|] eqn:W.
  { apply sim_finish. cbn. auto. }
  destruct T4 as [T4|(_ & TA & T4)].
  - rewrite <- T4. destruct (has_space a) eqn:Hs.
    + apply sim_bind. intros [[n p]|] _; [apply sim_finish; cbn; rewrite T1, T3; auto|].
      destruct (peek_is t (pos a) EQ); apply sim_rest; cbn; auto. left; congruence.
    + apply sim_rest; auto. left; congruence.
  - destruct T4 as [T4|T4]; [lia|].
    assert (NE : peek_is t (pos a) EQ = false) by (apply peek_is_false; rewrite T4; discriminate).
    assert (R : forall c, st c = WithinTag -> last_attr c = None -> pos c = pos a ->
      (if has_space c then
          do r <- next_attribute_name U t cs (pos a);
          match r with
          | Some (name, p) =>
              Ok (finish (set_space false (set_last_attr (Some name) c))
                         (pos a) AttributeName None p AfterAttributeName)
          | None =>
              let sc := set_last_attr None c in
              let sc := if peek_is t (pos a) EQ then set_space false sc else sc in
              scan_within_tag_rest t emit sc (pos a)
          end
        else scan_within_tag_rest t emit c (pos a)) = scan_within_tag_rest t emit c (pos a)).
    { intros c Sc Lc Pc. destruct (has_space c) eqn:Hs; auto. rewrite gt_no_name by auto.
      cbn [bind]. cbv zeta. rewrite NE. f_equal. unfold set_last_attr. rewrite <- Lc. destruct c; auto. }
    rewrite !R by congruence. apply sim_rest; auto.
Qed.

Lemma sim_set_last_type a b v v' : sim a b -> v = v' -> sim (set_last_type v a) (set_last_type v' b).
Proof. intros (H1 & H2 & H3) ->. repeat split; auto; cbn in *; tauto. Qed.

Lemma sim_quoted a b o p : sim a b -> st a = BeforeAttributeValue ->
  sim_res (scan_quoted U t emit cs a o p) (scan_quoted U t emit cs b o p).
Proof.
  intros HS Sa. unfold scan_quoted.
  pose proof HS as (S1 & S2 & S3). rewrite Sa in *. specialize (S3 eq_refl).
  destruct S3 as (T1 & T2 & T3 & T4).
  assert (F : sim_res (scan_within_tag U t emit cs (set_space false (set_pos p (set_st WithinTag a))))
                      (scan_within_tag U t emit cs (set_space false (set_pos p (set_st WithinTag b))))).
  { apply sim_within_tag; auto. split; [|split]; cbn; auto. }
  destruct (peek t p); auto. destruct (_ || _); auto.
  destruct (adv_until_char t (p + 1) n) as [found q]. rewrite <- T2.
  destruct (opt_beq (last_attr a) (bs "type")).
  - set (pp := if found then q + 1 else q). cbv zeta.
    destruct (if pp - 1 <? o + 1 then slice t (pp - 1) (o + 1) else slice t (o + 1) (pp - 1)); cbn [bind sim_res]; auto.
    apply sim_finish. cbn. auto.
  - cbn [bind]. apply sim_finish. cbn. auto.
Qed.

Lemma sim_before_value a b : sim a b -> st a = BeforeAttributeValue ->
  sim_res (scan_before_attribute_value U t emit cs a) (scan_before_attribute_value U t emit cs b).
Proof.
  intros HS Sa. unfold scan_before_attribute_value. apply sim_eos; auto. intros L.
  pose proof HS as (S1 & S2 & S3). rewrite Sa in S3. specialize (S3 eq_refl).
  destruct S3 as (T1 & T2 & T3 & T4).
  destruct (skip_ws t (pos a)); [apply sim_finish; cbn; auto|]. cbv zeta.
  apply sim_bind. intros [[s e]|] _; [|apply sim_quoted; auto].
  apply sim_bind. intros v _. rewrite <- T2.
  destruct (0 <? length v).
  - apply sim_finish. cbn. destruct (opt_beq _ _); cbn; auto.
  - destruct (opt_beq _ _); apply sim_quoted; auto. apply sim_set_last_type; auto.
Qed.

Lemma sim_scan a b : sim a b -> sim_res (scan a) (scan b).
Proof.
  intros HS. rewrite !(scan_internal U t emit cs HU). unfold internal_scan.
  pose proof HS as (S1 & S2 & S3). rewrite <- S1. destruct (st a) eqn:Sa.
  - apply sim_content; congruence.
  - unfold scan_after_opening_start_tag. apply sim_eos; auto. intros L. rewrite <- ?S1, ?Sa.
    apply sim_bind. intros [[n p]|] _; cbn [option_map fst].
    + apply sim_finish. cbn. auto.
    + destruct (skip_ws t (pos a)) as [p|]; [cbn [st set_last_attr set_last_type set_last_tag]; rewrite ?Sa, <- ?S1; apply sim_finish_out; auto|].
      cbv zeta. destruct (adv_until_char_spec t (pos a) GT ltac:(lia)) as ((F1 & F2 & F3 & F4) & _).
      destruct (_ <? _) eqn:C.
      * apply sim_finish. cbn. intros _. repeat split; auto. right. repeat split; auto.
        destruct F4 as [->|F4]; auto.
      * apply sim_within_tag; auto. split; [|split]; cbn; auto. intros _. repeat split; auto.
        right. repeat split; auto. right. apply (first_byte_self t); lia.
  - unfold scan_after_opening_end_tag. apply sim_eos; auto. intros L. rewrite <- ?S1, ?Sa.
    apply sim_bind. intros [[n p]|] _; [apply sim_finish_out; auto|].
    destruct (skip_ws t (pos a)) as [p|]; [apply sim_finish_out; auto|].
    cbv zeta. destruct (_ <? _); [apply sim_finish_out; auto|].
    apply sim_end_tag; auto.
  - unfold scan_doctype. apply sim_eos; auto. intros L. rewrite <- ?S1, ?Sa.
    destruct (adv_if_char t (pos a) GT); apply sim_finish_out; auto.
  - apply sim_within_tag; auto.
  - apply sim_end_tag; auto. congruence. rewrite Sa; auto.
  - unfold scan_comment. apply sim_eos; auto. intros L. rewrite <- ?S1, ?Sa.
    destruct (adv_if_chars t (pos a) (bs "-->")); apply sim_finish_out; auto.
  - unfold scan_script. apply sim_eos; auto. intros L. rewrite <- ?S1, ?Sa.
    apply sim_bind. intros [[|] p] _; [apply sim_finish_out; auto|].
    destruct (_ <? _); [apply sim_finish_out; auto|]. apply sim_content; auto.
  - unfold scan_style. apply sim_eos; auto. intros L.
    apply sim_bind. intros p _.
    destruct (_ <? _); [apply sim_finish_out; auto|]. apply sim_content; auto.
  - unfold scan_after_attribute_name. apply sim_eos; auto. intros L. rewrite <- ?S1, ?Sa.
    specialize (S3 eq_refl). destruct S3 as (T1 & T2 & T3 & T4).
    destruct (skip_ws t (pos a)); [apply sim_finish; cbn; auto|].
    destruct T4 as [T4|(T4 & _)]; [|discriminate].
    destruct (adv_if_char t (pos a) EQ); [apply sim_finish; cbn; auto|].
    apply sim_within_tag; auto. split; [|split]; cbn; auto.
  - apply sim_before_value; auto.
Qed.

Lemma sim_tokens fuel a b l f : sim a b -> tokens fuel a = Ok (l, f) ->
  exists f', tokens fuel b = Ok (l, f') /\ token_of f' = token_of f.
Proof.
  revert a b l f. induction fuel as [|fuel IH]; intros a b l f HS H; [discriminate|].
  cbn [Scanner.tokens] in *. apply bind_ok in H as (a' & Sa & H).
  pose proof (sim_scan _ _ HS) as R. rewrite Sa in R. unfold sim_res in R.
  destruct (scan b) as [b'| |]; try contradiction. destruct R as [R1 R2]. cbn [bind].
  pose proof (f_equal tk_type R2) as R3. cbn in R3. rewrite <- R3.
  destruct (token_eqb (tok a') EOS).
  - inv H. exists b'. auto.
  - apply bind_ok in H as ([l' f0] & T & H). inv H.
    destruct (IH _ _ _ _ R1 T) as (f' & F1 & F2). rewrite F1. cbn [bind]. rewrite R2. eauto.
Qed.

(** Splitting a token list at a token. *)
Lemma tokens_split fuel sc l1 k l2 f : tokens fuel sc = Ok (l1 ++ k :: l2, f) ->
  exists fuel' sc', fuel' <= fuel /\ token_of sc' = k /\ tokens fuel' sc' = Ok (l2, f).
Proof.
  revert sc l1. induction fuel as [|fuel IH]; intros sc l1 H; [discriminate|].
  cbn [Scanner.tokens] in H. apply bind_ok in H as (sc' & S & H).
  destruct (token_eqb (tok sc') EOS); [destruct l1; inv H|].
  apply bind_ok in H as ([l' f'] & T & H). destruct l1 as [|k' l1]; cbn [app] in H; inv H.
  - exists fuel, sc'. auto.
  - destruct (IH _ _ T) as (fu & s & H1 & H2 & H3). exists fu, s. auto.
Qed.

Lemma resume fuel sc l1 k l2 f :
  tokens fuel sc = Ok (l1 ++ k :: l2, f) -> in_start_tag (tk_state k) = false ->
  exists f', tokens fuel (scanner_new (tk_end k) (tk_state k)) = Ok (l2, f') /\
             token_of f' = token_of f.
Proof.
  intros H N. apply tokens_split in H as (fu & sc' & L & <- & T).
  assert (S : sim sc' (scanner_new (tk_end (token_of sc')) (tk_state (token_of sc')))).
  { split; [|split]; auto. cbn in *. congruence. }
  destruct (sim_tokens _ _ _ _ _ S T) as (f' & F1 & F2). exists f'. split; auto.
  eapply tokens_mono; eauto.
Qed.
End P.
