(** * Loops over the tokens of a document, as functions of the token list *)
From Verif Require Import Base Stream Scanner BaseFacts ScannerFacts ScanStep ScanProps ScanPanic
  ScanShape ScanResume Tree Parser ParseSpec ParseInv TextDoc SelectionRange SelAttr.
From Coq Require Import ZifyBool ZifyNat ZifyN.

(** What the scanner guarantees about the tokens whose text is read. *)
Definition text_token (ty : token_type) : Prop :=
  ty = StartTag \/ ty = EndTag \/ ty = AttributeName \/ ty = AttributeValue.
Definition tok_bd (t : str) (k : token) : Prop :=
  text_token (tk_type k) -> Bd t (tk_off k) /\ Bd t (tk_end k) /\ tk_off k < tk_end k.

(** The name an attribute value belongs to: the attribute name in front of it,
    nothing but white space and an equals sign between. *)
Definition value_name (before : list token) (ka : token) : Prop :=
  exists l1 l2, before = l1 ++ ka :: l2 /\ tk_type ka = AttributeName /\
    Forall (fun k => tk_type k = Whitespace \/ tk_type k = DelimiterAssign) l2.
(** The tag a token is in: the last start tag name in front of it. *)
Definition last_tag_of (before : list token) (kt : token) : Prop :=
  exists l1 l2, before = l1 ++ kt :: l2 /\ tk_type kt = StartTag /\
    Forall (fun k => tk_type k <> StartTag) l2.

Section TL.
Variables (U : unicode) (t : str) (cs : bool).
Hypothesis HU : Utf8 t.

Lemma scan_tok_bd sc sc' : Good t sc -> scan U t false cs sc = Ok sc' -> tok sc' <> EOS ->
  tok_bd t (token_of sc').
Proof.
  intros HG S NE T. pose proof (step_kind _ _ _ _ _ HU S NE) as (P1 & P2 & P3 & _).
  cbn [token_of tk_type tk_off tk_end] in *. rewrite P3.
  destruct T as [T|[T|T]].
  - apply scan_outcome in S; auto. inv S; cbn [tok finish pos] in *; try discriminate.
    + destruct (bd_elem U t HU _ _ H0). auto.
    + inv H1; discriminate.
  - apply scan_outcome in S; auto. inv S; cbn [tok finish pos] in *; try discriminate.
    + destruct (bd_elem U t HU _ _ H0). auto.
    + inv H1; discriminate.
  - destruct (attr_bd U t cs HU _ _ S T). auto.
Qed.

Section Loop.
Variable A : Type.
Variable step : scanner -> A -> res A.
Variable tstep : token -> A -> res A.
Hypothesis step_tok : forall sc s, tok_bd t (token_of sc) -> step sc s = tstep (token_of sc) s.
Variable loop : nat -> scanner -> A -> res A.
Hypothesis loop_eq : forall fuel sc s, loop fuel sc s =
  match fuel with
  | 0 => OutOfFuel
  | S fuel' =>
      do sc' <- scan U t false cs sc;
      if token_eqb (tok sc') EOS then Ok s
      else do s' <- step sc' s; loop fuel' sc' s'
  end.
Fixpoint foldm (l : list token) (s : A) : res A :=
  match l with [] => Ok s | k :: r => do s' <- tstep k s; foldm r s' end.

Lemma loop_tokens fuel : forall sc s l f, Good t sc \/ after_bad_char t sc ->
  tokens U t false cs fuel sc = Ok (l, f) -> loop fuel sc s = foldm l s.
Proof.
  induction fuel as [|fuel IH]; intros sc s l f HG H; [discriminate|].
  rewrite loop_eq. cbn [tokens] in H. apply bind_ok in H as (sc' & S & H). rewrite S. cbn [bind].
  destruct HG as [HG|HG].
  2:{ rewrite (after_bad_panics U t false cs HU _ HG) in S. discriminate. }
  destruct (token_eqb (tok sc') EOS) eqn:E; [inv H; auto|].
  apply bind_ok in H as ([l' f'] & T & H). inv H. apply token_eqb_neq in E.
  cbn [foldm]. rewrite step_tok by (eapply scan_tok_bd; eauto).
  destruct (tstep (token_of sc') s) as [s'|r|]; cbn [bind]; auto.
  eapply IH; eauto. apply (good_step U t false cs HU _ _ HG). apply scan_outcome; auto.
Qed.
Lemma loop_ok_tokens fuel : forall sc s r, loop fuel sc s = Ok r ->
  exists l f, tokens U t false cs fuel sc = Ok (l, f).
Proof.
  induction fuel as [|fuel IH]; intros sc s r H; rewrite loop_eq in H; [discriminate|].
  apply bind_ok in H as (sc' & S & H). cbn [tokens]. rewrite S. cbn [bind].
  destruct (token_eqb (tok sc') EOS); [eauto|].
  apply bind_ok in H as (s' & _ & H). apply IH in H as (l & f & H). rewrite H. cbn. eauto.
Qed.
Lemma loop_fuel fuel : forall sc s, (forall sc s, step sc s <> OutOfFuel) ->
  tokens U t false cs fuel sc <> OutOfFuel -> loop fuel sc s <> OutOfFuel.
Proof.
  induction fuel as [|fuel IH]; intros sc s NS H; [contradiction|].
  rewrite loop_eq. cbn [tokens] in H. destruct (scan U t false cs sc) as [sc'|r|]; cbn [bind] in *; try discriminate; auto.
  destruct (token_eqb (tok sc') EOS); [discriminate|].
  destruct (step sc' s) as [s'|r|] eqn:E; cbn [bind]; try discriminate; [|exfalso; eapply NS; eauto].
  apply IH; auto. intros N. rewrite N in H. apply H. reflexivity.
Qed.
End Loop.

Lemma tokens_bd fuel : forall sc l f, tokens U t false cs fuel sc = Ok (l, f) ->
  Good t sc \/ after_bad_char t sc -> Forall (tok_bd t) l.
Proof.
  induction fuel as [|fuel IH]; intros sc l f H HG; [discriminate|].
  cbn [tokens] in H. apply bind_ok in H as (sc' & S & H).
  destruct HG as [HG|HG].
  2:{ rewrite (after_bad_panics U t false cs HU _ HG) in S. discriminate. }
  destruct (token_eqb (tok sc') EOS) eqn:E; [inv H; constructor|].
  apply bind_ok in H as ([l' f'] & T & H). inv H. apply token_eqb_neq in E.
  constructor; [eapply scan_tok_bd; eauto|]. eapply IH; eauto.
  apply (good_step U t false cs HU _ _ HG). apply scan_outcome; auto.
Qed.

(** Attribute values follow their names. *)
Lemma tokens_value_name fuel : forall done sc l f, tokens U t false cs fuel sc = Ok (l, f) ->
  (st sc = AfterAttributeName \/ st sc = BeforeAttributeValue -> exists ka, value_name done ka) ->
  forall l1 k l2, l = l1 ++ k :: l2 -> tk_type k = AttributeValue -> exists ka, value_name (done ++ l1) ka.
Proof.
  induction fuel as [|fuel IH]; intros done sc l f H HA l1 k l2 E TK; [discriminate|].
  cbn [tokens] in H. apply bind_ok in H as (sc' & S & H).
  destruct (token_eqb (tok sc') EOS) eqn:Eo; [inv H; destruct l1; discriminate|].
  apply bind_ok in H as ([l' f'] & T & H). apply token_eqb_neq in Eo.
  destruct (step_kind _ _ _ _ _ HU S Eo) as (_ & _ & _ & K).
  injection H as H Hf. subst f'. destruct l1 as [|k1 l1]; cbn [app] in E.
  - rewrite E in H. inv H. cbn in TK. rewrite app_nil_r.
    destruct K as [?|? K|[?|?]|? ?]; try congruence. apply HA; auto.
  - rewrite E in H. inv H.
    replace (done ++ token_of sc' :: l1) with ((done ++ [token_of sc']) ++ l1) by (rewrite <- app_assoc; auto).
    eapply IH; eauto. intros ST. destruct K as [K1 K2 K3 K4|K1 K2 K3 K4|K1 K2 K3|K1 K2 K3 K4].
    + exists (token_of sc'). exists done, []. auto.
    + rewrite K4 in ST. destruct ST; discriminate.
    + destruct HA as (ka & m1 & m2 & -> & X & F); auto. exists ka, m1, (m2 ++ [token_of sc']).
      rewrite <- app_assoc. split; auto. split; auto. apply Forall_app; auto.
    + tauto.
Qed.
End TL.
