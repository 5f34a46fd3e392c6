(** * C72: custom data files *)
From Verif Require Import Base BaseFacts DataManager Json BuiltinText BuiltinData.
From Coq Require Import ZifyBool ZifyNat ZifyN Permutation.

(** ** The grammar of JSON (RFC 8259) *)
Definition space (w : str) : Prop := Forall (fun c => c = 32 \/ c = 10 \/ c = 13 \/ c = 9)%N w.
(** A hexadecimal digit and its value *)
Definition hexd (c v : N) : Prop :=
  (48 <= c <= 57 /\ v = c - 48)%N \/ (65 <= c <= 70 /\ v = c - 55)%N \/ (97 <= c <= 102 /\ v = c - 87)%N.
Definition four (a b c d n : N) : Prop :=
  exists va vb vc vd, hexd a va /\ hexd b vb /\ hexd c vc /\ hexd d vd /\ n = (va * 4096 + vb * 256 + vc * 16 + vd)%N.
(** One character of a string as written, and the bytes it stands for *)
Inductive jchar : str -> str -> Prop :=
| JC_plain c : (32 <= c)%N -> c <> 34%N -> c <> 92%N -> jchar [c] [c]
| JC_escape e x : In (e, x) [(34, 34); (92, 92); (47, 47); (98, 8); (102, 12); (110, 10); (114, 13); (116, 9)]%N -> jchar [92%N; e] [x]
| JC_unicode a b c d n : four a b c d n -> scalar n = true -> jchar [92%N; 117%N; a; b; c; d] (encode1 n)
| JC_pair a b c d n a' b' c' d' n' : four a b c d n -> four a' b' c' d' n' ->
    (55296 <= n < 56320)%N -> (56320 <= n' < 57344)%N ->
    jchar [92%N; 117%N; a; b; c; d; 92%N; 117%N; a'; b'; c'; d'] (encode1 (65536 + (n - 55296) * 1024 + (n' - 56320))).
Inductive jstring : str -> str -> Prop :=
| JS_nil : jstring [] []
| JS_cons u x s y : jchar u x -> jstring s y -> jstring (u ++ s) (x ++ y).
Definition all_digits (s : str) : Prop := Forall (fun c => 48 <= c <= 57)%N s.
Definition jnum (n : str) : Prop := exists sg i f e, n = sg ++ i ++ f ++ e /\
  (sg = [] \/ sg = [45%N]) /\
  (i = [48%N] \/ exists d r, i = d :: r /\ (49 <= d <= 57)%N /\ all_digits r) /\
  (f = [] \/ exists r, f = 46%N :: r /\ r <> [] /\ all_digits r) /\
  (e = [] \/ exists c g r, e = c :: g ++ r /\ (c = 101 \/ c = 69)%N /\ (g = [] \/ g = [43%N] \/ g = [45%N]) /\ r <> [] /\ all_digits r).
Inductive jtext : json -> str -> Prop :=
| T_null : jtext JNull (bs "null")
| T_true : jtext (JBool true) (bs "true")
| T_false : jtext (JBool false) (bs "false")
| T_num n : jnum n -> jtext (JNum n) n
| T_str x s : jstring s x -> jtext (JStr x) (34%N :: s ++ [34%N])
| T_arr0 w : space w -> jtext (JArr []) (91%N :: w ++ [93%N])
| T_arr l s : jitems l s -> jtext (JArr l) (91%N :: s ++ [93%N])
| T_obj0 w : space w -> jtext (JObj []) (123%N :: w ++ [125%N])
| T_obj l s : jfields l s -> jtext (JObj l) (123%N :: s ++ [125%N])
with jitems : list json -> str -> Prop :=
| I_one w j s w' : space w -> jtext j s -> space w' -> jitems [j] (w ++ s ++ w')
| I_more w j s w' l r : space w -> jtext j s -> space w' -> jitems l r -> jitems (j :: l) (w ++ s ++ w' ++ 44%N :: r)
with jfields : list (str * json) -> str -> Prop :=
| F_one w x k w1 w2 j s w3 : space w -> jstring x k -> space w1 -> space w2 -> jtext j s -> space w3 ->
    jfields [(k, j)] (w ++ 34%N :: x ++ 34%N :: w1 ++ 58%N :: w2 ++ s ++ w3)
| F_more w x k w1 w2 j s w3 l r : space w -> jstring x k -> space w1 -> space w2 -> jtext j s -> space w3 -> jfields l r ->
    jfields ((k, j) :: l) (w ++ 34%N :: x ++ 34%N :: w1 ++ 58%N :: w2 ++ s ++ w3 ++ 44%N :: r).
Scheme jtext_mut := Induction for jtext Sort Prop
  with jitems_mut := Induction for jitems Sort Prop
  with jfields_mut := Induction for jfields Sort Prop.
(** A JSON text *)
Definition json_text (j : json) (s : str) : Prop := exists w u w', s = w ++ u ++ w' /\ space w /\ jtext j u /\ space w'.

(** ** Reading a text *)
Lemma jws_space w r : space w -> jws (w ++ r) = jws r.
Proof. induction 1 as [|c w C F IH]; auto. cbn [app jws]. assert (E : is_jws c = true) by (unfold is_jws; lia). rewrite E. auto. Qed.
Lemma jws_stop c r : is_jws c = false -> jws (c :: r) = c :: r.
Proof. intros H. cbn [jws]. rewrite H. reflexivity. Qed.
Lemma jws_split s : exists w, s = w ++ jws s /\ space w.
Proof.
  induction s as [|c s (w & E & W)]; [exists []; split; auto; constructor|]. cbn [jws]. destruct (is_jws c) eqn:C.
  - exists (c :: w). split; [cbn [app]; congruence|]. constructor; auto. unfold is_jws in C. lia.
  - exists []. split; auto. constructor.
Qed.
Lemma space_app a b : space a -> space b -> space (a ++ b).
Proof. intros A B. apply Forall_app. auto. Qed.
Lemma space_nil : space [].
Proof. constructor. Qed.

Lemma hexval_spec c v : hexval c = Some v <-> hexd c v.
Proof.
  unfold hexval, hexd. destruct (_ && _)%bool eqn:A; [split; [intros E; inv E; lia|intros H; f_equal; lia]|].
  destruct ((65 <=? c) && _)%N eqn:B; [split; [intros E; inv E; lia|intros H; f_equal; lia]|].
  destruct ((97 <=? c) && _)%N eqn:C; [split; [intros E; inv E; lia|intros H; f_equal; lia]|].
  split; [discriminate|lia].
Qed.
Lemma hexd_lt c v : hexd c v -> (v < 16)%N.
Proof. unfold hexd. lia. Qed.
Lemma hex4_spec a b c d n : hex4 a b c d = Some n <-> four a b c d n.
Proof.
  unfold hex4, four. split.
  - intros H. destruct (hexval a) as [va|] eqn:A; [|discriminate]. destruct (hexval b) as [vb|] eqn:B; [|discriminate].
    destruct (hexval c) as [vc|] eqn:C; [|discriminate]. destruct (hexval d) as [vd|] eqn:D; [|discriminate].
    inv H. apply hexval_spec in A, B, C, D. exists va, vb, vc, vd. repeat (split; [assumption|]). lia.
  - intros (va & vb & vc & vd & A & B & C & D & ->). apply hexval_spec in A, B, C, D. rewrite A, B, C, D. f_equal. lia.
Qed.
Lemma four_lt a b c d n : four a b c d n -> (n < 65536)%N.
Proof. intros (va & vb & vc & vd & A & B & C & D & ->). apply hexd_lt in A, B, C, D. lia. Qed.
Lemma simple_spec e x : simple_escape e = Some x <->
  In (e, x) [(34, 34); (92, 92); (47, 47); (98, 8); (102, 12); (110, 10); (114, 13); (116, 9)]%N.
Proof.
  unfold simple_escape. split.
  - intros H. repeat match type of H with (if ?b then _ else _) = _ => let E := fresh in destruct b eqn:E; [apply N.eqb_eq in E; subst e; inv H; cbn; tauto|] end.
    discriminate.
  - intros H. cbn [In] in H. repeat (destruct H as [H|H]; [injection H as <- <-; reflexivity|]). destruct H.
Qed.

Lemma jchars_one u x r : jchar u x -> jchars (u ++ r) = pre_str x (jchars r).
Proof.
  intros H. destruct H as [c A B C|e x I|a b c d n F S|a b c d n a' b' c' d' n' F F' R R']; cbn [app].
  - cbn [jchars]. replace (c =? 34)%N with false by lia. replace (c =? 92)%N with false by lia. replace (c <? 32)%N with false by lia. reflexivity.
  - apply simple_spec in I. cbn [jchars]. change (92 =? 34)%N with false. change (92 =? 92)%N with true. cbn match. rewrite I.
    replace (e =? 117)%N with false; [reflexivity|]. symmetry. destruct (e =? 117)%N eqn:E; auto. apply N.eqb_eq in E. subst e. discriminate.
  - assert (L : is_low n = false /\ is_high n = false) by (unfold is_low, is_high; unfold scalar in S; pose proof (four_lt _ _ _ _ _ F); lia).
    apply hex4_spec in F. cbn [jchars]. change (92 =? 34)%N with false. change (92 =? 92)%N with true. change (117 =? 117)%N with true. cbn match.
    rewrite F. destruct L as [-> ->]. reflexivity.
  - assert (L : is_low n = false /\ is_high n = true /\ is_low n' = true) by (unfold is_low, is_high; lia).
    apply hex4_spec in F, F'. cbn [jchars]. change (92 =? 34)%N with false. change (92 =? 92)%N with true. change (117 =? 117)%N with true. cbn match. cbn [andb].
    rewrite F. destruct L as (-> & -> & L). rewrite F', L. reflexivity.
Qed.
Lemma jchars_complete u x r : jstring u x -> jchars (u ++ 34%N :: r) = Some (x, r).
Proof.
  induction 1 as [|u x s y C S IH]; [reflexivity|]. rewrite app_assoc_reverse, (jchars_one u x) by auto. rewrite IH. reflexivity.
Qed.
Lemma pre_str_some x o y r : pre_str x o = Some (y, r) -> exists k, o = Some (k, r) /\ y = x ++ k.
Proof. destruct o as [[k r']|]; [|discriminate]. cbn [pre_str]. intros H. inv H. eauto. Qed.
Lemma jchars_sound n : forall s x r, length s <= n -> jchars s = Some (x, r) -> exists u, s = u ++ 34%N :: r /\ jstring u x.
Proof.
  induction n as [|n IH]; intros s x r L H; (destruct s as [|c s]; [discriminate|]); cbn [length] in L; [lia|].
  assert (STEP : forall u y s', c :: s = u ++ s' -> jchar u y -> length s' <= n -> pre_str y (jchars s') = Some (x, r) ->
            exists u, c :: s = u ++ 34%N :: r /\ jstring u x).
  { intros u y s' E C L' P. apply pre_str_some in P as (k & K & ->). destruct (IH _ _ _ L' K) as (v & -> & V).
    exists (u ++ v). split; [rewrite E, app_assoc_reverse; reflexivity|]. constructor; auto. }
  cbn [jchars] in H. destruct (c =? 34)%N eqn:C1.
  { inv H. apply N.eqb_eq in C1. subst c. exists []. split; auto. constructor. }
  destruct (c =? 92)%N eqn:C2.
  - apply N.eqb_eq in C2. subst c. destruct s as [|e s]; [discriminate|]. destruct (e =? 117)%N eqn:EU.
    + apply N.eqb_eq in EU. subst e. destruct s as [|h1 [|h2 [|h3 [|h4 s]]]]; try discriminate.
      destruct (hex4 h1 h2 h3 h4) as [m|] eqn:X; [|discriminate]. apply hex4_spec in X. destruct (is_low m) eqn:LO; [discriminate|].
      destruct (is_high m) eqn:HI.
      * destruct s as [|b [|u [|g1 [|g2 [|g3 [|g4 s]]]]]]; try discriminate. destruct ((b =? 92)%N && (u =? 117)%N) eqn:BU; [|discriminate].
        assert (b = 92%N /\ u = 117%N) as [-> ->] by lia. destruct (hex4 g1 g2 g3 g4) as [m'|] eqn:X'; [|discriminate]. apply hex4_spec in X'.
        destruct (is_low m') eqn:LO'; [|discriminate]. eapply STEP; [| |  |exact H].
        -- change (92%N :: 117%N :: h1 :: h2 :: h3 :: h4 :: 92%N :: 117%N :: g1 :: g2 :: g3 :: g4 :: s)
             with ([92%N; 117%N; h1; h2; h3; h4; 92%N; 117%N; g1; g2; g3; g4] ++ s). reflexivity.
        -- apply JC_pair; auto; unfold is_low, is_high in *; lia.
        -- cbn [length] in L. lia.
      * eapply STEP; [| |  |exact H].
        -- change (92%N :: 117%N :: h1 :: h2 :: h3 :: h4 :: s) with ([92%N; 117%N; h1; h2; h3; h4] ++ s). reflexivity.
        -- apply JC_unicode; auto. unfold is_low, is_high, scalar in *. pose proof (four_lt _ _ _ _ _ X). lia.
        -- cbn [length] in L. lia.
    + destruct (simple_escape e) as [y|] eqn:Y; [|discriminate]. apply simple_spec in Y.
      eapply (STEP [92%N; e]); [reflexivity|apply JC_escape; eauto| |exact H]. cbn [length] in L. lia.
  - destruct (c <? 32)%N eqn:C3; [discriminate|]. eapply (STEP [c]); [reflexivity|apply JC_plain; lia|lia|exact H].
Qed.

(** Numbers *)
Definition num_end (r : str) : Prop := match r with c :: _ => is_dig c = false /\ c <> 46%N /\ c <> 101%N /\ c <> 69%N | [] => True end.
Lemma digits_complete a r : all_digits a -> match r with c :: _ => is_dig c = false | [] => True end -> digits (a ++ r) = (a, r).
Proof.
  intros A R. induction A as [|c a C A IH]; cbn [app].
  - destruct r as [|c r]; auto. cbn [digits]. rewrite R. reflexivity.
  - cbn [digits]. replace (is_dig c) with true by (unfold is_dig; lia). rewrite IH. reflexivity.
Qed.
Lemma digits_sound s : forall a b, digits s = (a, b) -> s = a ++ b /\ all_digits a.
Proof.
  induction s as [|c s IH]; intros a b H; cbn [digits] in H; [inv H; split; auto; constructor|]. destruct (is_dig c) eqn:C.
  - destruct (digits s) as [a' b'] eqn:E. inv H. destruct (IH _ _ eq_refl) as [-> A]. split; auto. constructor; auto. unfold is_dig in C. lia.
  - inv H. split; auto. constructor.
Qed.
Lemma jnumber_complete n r : jnum n -> num_end r -> jnumber (n ++ r) = Some (n, r).
Proof.
  intros (sg & i & f & e & -> & SG & I & FR & EX) NE. unfold jnumber. rewrite !app_assoc_reverse.
  assert (DI : exists c i', i = c :: i' /\ is_dig c = true).
  { destruct I as [->|(d & q & -> & D & _)]; eexists _, _; (split; [reflexivity|]); unfold is_dig; lia. }
  destruct DI as (c0 & i' & EI & C0).
  assert (SGN : jsign (sg ++ i ++ f ++ e ++ r) = (sg, i ++ f ++ e ++ r)).
  { unfold jsign. destruct SG as [->| ->]; cbn [app]; [|reflexivity]. rewrite EI. cbn [app]. replace (c0 =? 45)%N with false by (unfold is_dig in C0; lia). reflexivity. }
  rewrite SGN. clear SGN.
  assert (EH : match e ++ r with c :: _ => is_dig c = false /\ c <> 46%N | [] => True end).
  { destruct EX as [->|(c & g & q & -> & C & _)]; cbn [app]; [destruct r; cbn in *; tauto|]. unfold is_dig. lia. }
  assert (FH : match f ++ e ++ r with c :: _ => is_dig c = false | [] => True end).
  { destruct FR as [->|(q & -> & _)]; cbn [app]; [destruct (e ++ r); tauto|reflexivity]. }
  assert (JI : jint (i ++ f ++ e ++ r) = Some (i, f ++ e ++ r)).
  { destruct I as [->|(d & q & -> & D & Q)]; unfold jint; cbn [app].
    - change (48 =? 48)%N with true. cbn match. destruct (f ++ e ++ r) as [|c y]; auto. rewrite FH. reflexivity.
    - replace (d =? 48)%N with false by lia. replace (is_dig d) with true by (unfold is_dig; lia). rewrite digits_complete by auto. reflexivity. }
  rewrite JI.
  assert (JF : jfrac (f ++ e ++ r) = Some (f, e ++ r)).
  { destruct FR as [->|(q & -> & NQ & Q)]; unfold jfrac; cbn [app].
    - destruct (e ++ r) as [|c y]; auto. replace (c =? 46)%N with false by lia. reflexivity.
    - change (46 =? 46)%N with true. cbn match. rewrite digits_complete; [|auto|destruct (e ++ r); tauto]. destruct q; [congruence|reflexivity]. }
  rewrite JF.
  assert (JE : jexp (e ++ r) = Some (e, r)).
  { destruct EX as [->|(c & g & q & -> & C & G & NQ & Q)]; unfold jexp; cbn [app].
    - destruct r as [|c y]; auto. cbn in NE. replace ((c =? 101) || (c =? 69))%N with false by lia. reflexivity.
    - replace ((c =? 101) || (c =? 69))%N with true by lia.
      assert (R0 : match r with c :: _ => is_dig c = false | [] => True end) by (destruct r; cbn in *; tauto).
      destruct q as [|q0 q]; [congruence|]. inversion Q as [|? ? Q0 Q1]; subst.
      destruct G as [->|[->| ->]]; cbn [app].
      + replace (is_sign q0) with false by (unfold is_sign; lia). change (q0 :: q ++ r) with ((q0 :: q) ++ r). rewrite digits_complete by auto. reflexivity.
      + change (is_sign 43) with true. cbn match. change (q0 :: q ++ r) with ((q0 :: q) ++ r). rewrite digits_complete by auto. reflexivity.
      + change (is_sign 45) with true. cbn match. change (q0 :: q ++ r) with ((q0 :: q) ++ r). rewrite digits_complete by auto. reflexivity. }
  rewrite JE. reflexivity.
Qed.
Lemma jint_sound s i r : jint s = Some (i, r) -> s = i ++ r /\ (i = [48%N] \/ exists d q, i = d :: q /\ (49 <= d <= 57)%N /\ all_digits q).
Proof.
  unfold jint. destruct s as [|c s]; [discriminate|]. destruct (c =? 48)%N eqn:C.
  - apply N.eqb_eq in C. subst c. intros H. assert (E : i = [48%N] /\ r = s) by (destruct s as [|d s]; [inv H; auto|destruct (is_dig d); [discriminate|inv H; auto]]).
    destruct E as [-> ->]. split; auto.
  - destruct (is_dig c) eqn:D; [|discriminate]. destruct (digits s) as [a b] eqn:E. intros H. inv H. apply digits_sound in E as [-> A].
    split; auto. right. exists c, a. split; auto. split; auto. unfold is_dig in D. lia.
Qed.
Lemma jfrac_sound s f r : jfrac s = Some (f, r) -> s = f ++ r /\ (f = [] \/ exists q, f = 46%N :: q /\ q <> [] /\ all_digits q).
Proof.
  unfold jfrac. destruct s as [|c s]; [intros H; inv H; auto|]. destruct (c =? 46)%N eqn:C.
  - apply N.eqb_eq in C. subst c. destruct (digits s) as [a b] eqn:E. apply digits_sound in E as [-> A]. destruct a as [|a0 a]; [discriminate|].
    intros H. inv H. split; auto. right. exists (a0 :: a). split; auto. split; auto. discriminate.
  - intros H. inv H. auto.
Qed.
Lemma jexp_sound s e r : jexp s = Some (e, r) -> s = e ++ r /\
  (e = [] \/ exists c g q, e = c :: g ++ q /\ (c = 101 \/ c = 69)%N /\ (g = [] \/ g = [43%N] \/ g = [45%N]) /\ q <> [] /\ all_digits q).
Proof.
  unfold jexp. destruct s as [|c s]; [intros H; inv H; auto|]. destruct ((c =? 101) || (c =? 69))%N eqn:C; [|intros H; inv H; auto].
  destruct s as [|g s]; [discriminate|]. destruct (is_sign g) eqn:G.
  - destruct (digits s) as [a b] eqn:E. apply digits_sound in E as [-> A]. destruct a as [|a0 a]; [discriminate|].
    intros H. inv H. split; auto. right. exists c, [g], (a0 :: a). split; auto. split; [lia|]. split; [unfold is_sign in G; assert (Q : g = 43%N \/ g = 45%N) by lia; destruct Q; subst g; auto|].
    split; auto. discriminate.
  - destruct (digits (g :: s)) as [a b] eqn:E. apply digits_sound in E as [-> A]. destruct a as [|a0 a]; [discriminate|].
    intros H. inv H. split; auto. right. exists c, [], (a0 :: a). split; auto. split; [lia|]. split; auto. split; auto. discriminate.
Qed.
Lemma jnumber_sound s n r : jnumber s = Some (n, r) -> s = n ++ r /\ jnum n.
Proof.
  unfold jnumber. intros H.
  assert (P : exists sg r0, jsign s = (sg, r0) /\ s = sg ++ r0 /\ (sg = [] \/ sg = [45%N])).
  { unfold jsign. destruct s as [|c s']; [exists [], []; auto|]. destruct (c =? 45)%N eqn:C; [apply N.eqb_eq in C; subst c; exists [45%N], s'; auto|exists [], (c :: s'); auto]. }
  destruct P as (sg & r0 & P & -> & SG). rewrite P in H. clear P. destruct (jint r0) as [[i r1]|] eqn:I; [|discriminate]. apply jint_sound in I as [-> I].
  destruct (jfrac r1) as [[f r2]|] eqn:FR; [|discriminate]. apply jfrac_sound in FR as [-> FR].
  destruct (jexp r2) as [[e r3]|] eqn:EX; [|discriminate]. apply jexp_sound in EX as [-> EX]. inv H.
  split; [rewrite !app_assoc_reverse; reflexivity|]. exists sg, i, f, e. auto.
Qed.
Lemma jnum_head n : jnum n -> exists c r, n = c :: r /\ (c = 45 \/ 48 <= c <= 57)%N.
Proof.
  intros (sg & i & f & e & -> & SG & I & _). destruct SG as [->| ->]; [|eexists _, _; split; [reflexivity|auto]].
  destruct I as [->|(d & r & -> & D & _)]; eexists _, _; (split; [reflexivity|lia]).
Qed.

(** Values: every text of the grammar is read *)
Lemma lit_app p r : lit p (p ++ r) = Some r.
Proof. induction p as [|c p IH]; [reflexivity|]. cbn [app lit]. rewrite N.eqb_refl. exact IH. Qed.
Lemma lit_sound p : forall s r, lit p s = Some r -> s = p ++ r.
Proof.
  induction p as [|c p IH]; intros s r H; cbn [lit] in H; [inv H; auto|]. destruct s as [|b s]; [discriminate|].
  destruct (c =? b)%N eqn:E; [|discriminate]. apply N.eqb_eq in E. subst b. cbn [app]. f_equal. auto.
Qed.
Definition first_ok (s : str) : Prop := exists c r, s = c :: r /\ is_jws c = false /\ c <> 93%N /\ c <> 125%N.
Lemma jtext_first j s : jtext j s -> first_ok s.
Proof.
  intros H. destruct H as [| | |n J|x s J|w W|l s I|w W|l s I];
    [exists 110%N, (bs "ull")|exists 116%N, (bs "rue")|exists 102%N, (bs "alse")| |eexists 34%N, _|eexists 91%N, _|eexists 91%N, _|eexists 123%N, _|eexists 123%N, _];
    try (split; [reflexivity|]; split; [reflexivity|]; split; discriminate).
  destruct (jnum_head n J) as (c & r & -> & C). eexists _, _. split; [reflexivity|]. unfold is_jws. lia.
Qed.
Lemma num_end_space w c r : space w -> is_dig c = false -> c <> 46%N -> c <> 101%N -> c <> 69%N -> num_end (w ++ c :: r).
Proof.
  intros W A B C D. destruct W as [|x w X W]; cbn [app num_end]; [auto|]. unfold is_dig. lia.
Qed.
Lemma num_end_blank w : space w -> num_end w.
Proof. intros W. destruct W as [|x w X W]; cbn; [auto|]. unfold is_dig. lia. Qed.

Definition reads (j : json) (s : str) : Prop := forall f w r, space w -> 2 * length s + 1 <= f -> num_end r -> jvalue f (w ++ s ++ r) = Some (j, r).
Definition reads_items (l : list json) (s : str) : Prop := forall f r, 2 * length s + 2 <= f -> jelements f (s ++ 93%N :: r) = Some (l, r).
Definition reads_fields (l : list (str * json)) (s : str) : Prop := forall f r, 2 * length s + 2 <= f -> jmembers f (s ++ 125%N :: r) = Some (l, r).
Lemma items_first l s : jitems l s -> exists w c r, s = w ++ c :: r /\ space w /\ is_jws c = false /\ c <> 93%N.
Proof.
  intros H. destruct H as [w j s w' W T W'|w j s w' l r W T W' I]; destruct (jtext_first _ _ T) as (c & q & -> & C1 & C2 & _); cbn [app]; eauto 8.
Qed.
Lemma fields_first l s : jfields l s -> exists w r, s = w ++ 34%N :: r /\ space w.
Proof. intros H. destruct H; eauto. Qed.
Lemma jvalue_S f s : jvalue (S f) s =
      match jws s with
      | [] => None
      | c :: r =>
          if (c =? 34)%N then match jchars r with Some (x, r') => Some (JStr x, r') | None => None end
          else if (c =? 123)%N then
            match jws r with
            | e :: r' => if (e =? 125)%N then Some (JObj [], r')
                         else match jmembers f r with Some (l, r2) => Some (JObj l, r2) | None => None end
            | [] => None
            end
          else if (c =? 91)%N then
            match jws r with
            | e :: r' => if (e =? 93)%N then Some (JArr [], r')
                         else match jelements f r with Some (l, r2) => Some (JArr l, r2) | None => None end
            | [] => None
            end
          else if (c =? 110)%N then match lit (bs "ull") r with Some r' => Some (JNull, r') | None => None end
          else if (c =? 116)%N then match lit (bs "rue") r with Some r' => Some (JBool true, r') | None => None end
          else if (c =? 102)%N then match lit (bs "alse") r with Some r' => Some (JBool false, r') | None => None end
          else match jnumber (c :: r) with Some (n, r') => Some (JNum n, r') | None => None end
      end.
Proof. reflexivity. Qed.
Lemma jelements_S f s : jelements (S f) s =
      match jvalue f s with
      | None => None
      | Some (v, r) =>
          match jws r with
          | e :: r' => if (e =? 44)%N then match jelements f r' with Some (l, r2) => Some (v :: l, r2) | None => None end
                       else if (e =? 93)%N then Some ([v], r') else None
          | [] => None
          end
      end.
Proof. reflexivity. Qed.
Lemma jmembers_S f s : jmembers (S f) s =
      match jws s with
      | q :: r0 =>
          if (q =? 34)%N then
            match jchars r0 with
            | None => None
            | Some (k, r1) =>
                match jws r1 with
                | c :: r2 =>
                    if (c =? 58)%N then
                      match jvalue f r2 with
                      | None => None
                      | Some (v, r) =>
                          match jws r with
                          | e :: r' => if (e =? 44)%N then match jmembers f r' with Some (l, r3) => Some ((k, v) :: l, r3) | None => None end
                                       else if (e =? 125)%N then Some ([(k, v)], r') else None
                          | [] => None
                          end
                      end
                    else None
                | [] => None
                end
            end
          else None
      | [] => None
      end.
Proof. reflexivity. Qed.
Lemma value_complete : forall j s, jtext j s -> reads j s.
Proof.
  apply (jtext_mut (fun j s _ => reads j s) (fun l s _ => reads_items l s) (fun l s _ => reads_fields l s)).
  - intros f w r W L E. destruct f; [lia|]. rewrite jvalue_S, jws_space by auto. change (bs "null" ++ r) with (110%N :: bs "ull" ++ r).
    rewrite jws_stop by reflexivity. cbn [N.eqb Pos.eqb]. rewrite lit_app. reflexivity.
  - intros f w r W L E. destruct f; [lia|]. rewrite jvalue_S, jws_space by auto. change (bs "true" ++ r) with (116%N :: bs "rue" ++ r).
    rewrite jws_stop by reflexivity. cbn [N.eqb Pos.eqb]. rewrite lit_app. reflexivity.
  - intros f w r W L E. destruct f; [lia|]. rewrite jvalue_S, jws_space by auto. change (bs "false" ++ r) with (102%N :: bs "alse" ++ r).
    rewrite jws_stop by reflexivity. cbn [N.eqb Pos.eqb]. rewrite lit_app. reflexivity.
  - intros n J f w r W L E. destruct f; [lia|]. rewrite jvalue_S, jws_space by auto. pose proof (jnumber_complete n r J E) as JN.
    destruct (jnum_head n J) as (c & q & -> & C). cbn [app] in *. rewrite jws_stop by (unfold is_jws; lia).
    replace (c =? 34)%N with false by lia. replace (c =? 123)%N with false by lia. replace (c =? 91)%N with false by lia.
    replace (c =? 110)%N with false by lia. replace (c =? 116)%N with false by lia. replace (c =? 102)%N with false by lia. rewrite JN. reflexivity.
  - intros x s J f w r W L E. destruct f; [lia|]. rewrite jvalue_S, jws_space by auto. cbn [app]. rewrite jws_stop by reflexivity. cbn [N.eqb Pos.eqb].
    rewrite app_assoc_reverse. cbn [app]. rewrite (jchars_complete s x r J). reflexivity.
  - intros w0 W0 f w r W L E. destruct f; [lia|]. rewrite jvalue_S, jws_space by auto. cbn [app]. rewrite jws_stop by reflexivity. cbn [N.eqb Pos.eqb].
    rewrite app_assoc_reverse. cbn [app]. rewrite jws_space by auto. rewrite jws_stop by reflexivity. reflexivity.
  - intros l s I IH f w r W L E. destruct f; [lia|]. rewrite jvalue_S, jws_space by auto. cbn [app]. rewrite jws_stop by reflexivity. cbn [N.eqb Pos.eqb].
    rewrite app_assoc_reverse. cbn [app]. cbn [length] in L. rewrite app_length in L. cbn [length] in L.
    rewrite IH by lia. destruct (items_first _ _ I) as (w1 & c & q & -> & W1 & C1 & C2). rewrite app_assoc_reverse. cbn [app].
    rewrite jws_space by auto. rewrite jws_stop by auto. replace (c =? 93)%N with false by lia. reflexivity.
  - intros w0 W0 f w r W L E. destruct f; [lia|]. rewrite jvalue_S, jws_space by auto. cbn [app]. rewrite jws_stop by reflexivity. cbn [N.eqb Pos.eqb].
    rewrite app_assoc_reverse. cbn [app]. rewrite jws_space by auto. rewrite jws_stop by reflexivity. reflexivity.
  - intros l s I IH f w r W L E. destruct f; [lia|]. rewrite jvalue_S, jws_space by auto. cbn [app]. rewrite jws_stop by reflexivity. cbn [N.eqb Pos.eqb].
    rewrite app_assoc_reverse. cbn [app]. cbn [length] in L. rewrite app_length in L. cbn [length] in L.
    rewrite IH by lia. destruct (fields_first _ _ I) as (w1 & q & -> & W1). rewrite app_assoc_reverse. cbn [app].
    rewrite jws_space by auto. rewrite jws_stop by reflexivity. reflexivity.
  - intros w j s w' W T IH W' f r L. destruct f; [lia|]. rewrite jelements_S. rewrite !app_length in L. rewrite !app_assoc_reverse.
    rewrite (IH f w (w' ++ 93%N :: r)); [|auto|lia|apply num_end_space; auto; discriminate]. rewrite jws_space by auto. rewrite jws_stop by reflexivity. reflexivity.
  - intros w j s w' l q W T IH W' I IHl f r L. destruct f; [lia|]. rewrite jelements_S. rewrite !app_length in L. cbn [length] in L. rewrite !app_assoc_reverse. cbn [app].
    rewrite (IH f w (w' ++ 44%N :: q ++ 93%N :: r)); [|auto|lia|apply num_end_space; auto; discriminate]. rewrite jws_space by auto. rewrite jws_stop by reflexivity.
    cbn [N.eqb Pos.eqb]. rewrite IHl by lia. reflexivity.
  - intros w x k w1 w2 j s w3 W X W1 W2 T IH W3 f r L. destruct f; [lia|]. rewrite jmembers_S.
    rewrite !app_length in L. cbn [length] in L. rewrite !app_length in L. cbn [length] in L. rewrite !app_length in L. cbn [length] in L. rewrite !app_length in L.
    rewrite ?app_assoc_reverse. cbn [app]. rewrite ?app_assoc_reverse. cbn [app]. rewrite ?app_assoc_reverse. cbn [app]. rewrite ?app_assoc_reverse.
    rewrite jws_space by auto. rewrite jws_stop by reflexivity. cbn [N.eqb Pos.eqb]. rewrite (jchars_complete x k) by auto.
    rewrite jws_space by auto. rewrite jws_stop by reflexivity. cbn [N.eqb Pos.eqb].
    rewrite (IH f w2 (w3 ++ 125%N :: r)); [|auto|lia|apply num_end_space; auto; discriminate]. rewrite jws_space by auto. rewrite jws_stop by reflexivity. reflexivity.
  - intros w x k w1 w2 j s w3 l q W X W1 W2 T IH W3 I IHl f r L. destruct f; [lia|]. rewrite jmembers_S.
    rewrite !app_length in L. cbn [length] in L. rewrite !app_length in L. cbn [length] in L. rewrite !app_length in L. cbn [length] in L. rewrite !app_length in L. cbn [length] in L.
    rewrite ?app_assoc_reverse. cbn [app]. rewrite ?app_assoc_reverse. cbn [app]. rewrite ?app_assoc_reverse. cbn [app]. rewrite ?app_assoc_reverse. cbn [app].
    rewrite jws_space by auto. rewrite jws_stop by reflexivity. cbn [N.eqb Pos.eqb]. rewrite (jchars_complete x k) by auto.
    rewrite jws_space by auto. rewrite jws_stop by reflexivity. cbn [N.eqb Pos.eqb].
    rewrite (IH f w2 (w3 ++ 44%N :: q ++ 125%N :: r)); [|auto|lia|apply num_end_space; auto; discriminate]. rewrite jws_space by auto. rewrite jws_stop by reflexivity.
    cbn [N.eqb Pos.eqb]. rewrite IHl by lia. reflexivity.
Qed.

(** What is read is a text of the grammar *)
Lemma jws_cons s c r : jws s = c :: r -> exists w, s = w ++ c :: r /\ space w.
Proof. intros E. destruct (jws_split s) as (w & S & W). rewrite E in S. eauto. Qed.
Lemma value_sound f : forall s,
  (forall j r, jvalue f s = Some (j, r) -> exists w u, s = w ++ u ++ r /\ space w /\ jtext j u) /\
  (forall l r, jelements f s = Some (l, r) -> exists u, s = u ++ 93%N :: r /\ jitems l u) /\
  (forall l r, jmembers f s = Some (l, r) -> exists u, s = u ++ 125%N :: r /\ jfields l u).
Proof.
  induction f as [|f IH]; intros s; [split; [|split]; discriminate|].
  split; [|split].
  - intros j r. rewrite jvalue_S. destruct (jws s) as [|c q] eqn:E; [discriminate|]. apply jws_cons in E as (w & -> & W).
    destruct (c =? 34)%N eqn:C1.
    { apply N.eqb_eq in C1. subst c. destruct (jchars q) as [[x r']|] eqn:J; [|discriminate]. intros H. inv H.
      apply (jchars_sound (length q)) in J as (u & -> & U); [|lia]. exists w, (34%N :: u ++ [34%N]). split; [cbn [app]; rewrite app_assoc_reverse; reflexivity|].
      split; auto. constructor. auto. }
    destruct (c =? 123)%N eqn:C2.
    { apply N.eqb_eq in C2. subst c. destruct (jws q) as [|e q'] eqn:Q; [discriminate|]. apply jws_cons in Q as (w1 & Q & W1).
      destruct (e =? 125)%N eqn:E1.
      - apply N.eqb_eq in E1. subst e. intros H. inv H. exists w, (123%N :: w1 ++ [125%N]). split; [cbn [app]; rewrite app_assoc_reverse; reflexivity|].
        split; auto. constructor. auto.
      - destruct (jmembers f q) as [[l r2]|] eqn:M; [|discriminate]. apply (proj2 (proj2 (IH q))) in M as (u & M & U). intros H. injection H as <- <-. rewrite M.
        exists w, (123%N :: u ++ [125%N]). split; [cbn [app]; rewrite app_assoc_reverse; reflexivity|]. split; auto. constructor. auto. }
    destruct (c =? 91)%N eqn:C3.
    { apply N.eqb_eq in C3. subst c. destruct (jws q) as [|e q'] eqn:Q; [discriminate|]. apply jws_cons in Q as (w1 & Q & W1).
      destruct (e =? 93)%N eqn:E1.
      - apply N.eqb_eq in E1. subst e. intros H. inv H. exists w, (91%N :: w1 ++ [93%N]). split; [cbn [app]; rewrite app_assoc_reverse; reflexivity|].
        split; auto. constructor. auto.
      - destruct (jelements f q) as [[l r2]|] eqn:M; [|discriminate]. apply (proj1 (proj2 (IH q))) in M as (u & M & U). intros H. injection H as <- <-. rewrite M.
        exists w, (91%N :: u ++ [93%N]). split; [cbn [app]; rewrite app_assoc_reverse; reflexivity|]. split; auto. constructor. auto. }
    destruct (c =? 110)%N eqn:C4.
    { apply N.eqb_eq in C4. subst c. destruct (lit _ q) as [r'|] eqn:J; [|discriminate]. intros H. inv H. apply lit_sound in J. subst q.
      exists w, (bs "null"). split; auto. split; auto. constructor. }
    destruct (c =? 116)%N eqn:C5.
    { apply N.eqb_eq in C5. subst c. destruct (lit _ q) as [r'|] eqn:J; [|discriminate]. intros H. inv H. apply lit_sound in J. subst q.
      exists w, (bs "true"). split; auto. split; auto. constructor. }
    destruct (c =? 102)%N eqn:C6.
    { apply N.eqb_eq in C6. subst c. destruct (lit _ q) as [r'|] eqn:J; [|discriminate]. intros H. inv H. apply lit_sound in J. subst q.
      exists w, (bs "false"). split; auto. split; auto. constructor. }
    destruct (jnumber (c :: q)) as [[n r']|] eqn:J; [|discriminate]. intros H. inv H. apply jnumber_sound in J as [J N].
    exists w, n. split; [rewrite <- J; auto|]. split; auto. constructor. auto.
  - intros l r. rewrite jelements_S. destruct (jvalue f s) as [[v q]|] eqn:V; [|discriminate]. apply IH in V as (w & u & -> & W & U).
    destruct (jws q) as [|e q'] eqn:Q; [discriminate|]. apply jws_cons in Q as (w1 & -> & W1). destruct (e =? 44)%N eqn:E1.
    + apply N.eqb_eq in E1. subst e. destruct (jelements f q') as [[l' r2]|] eqn:M; [|discriminate]. intros H. inv H. apply IH in M as (u' & -> & U').
      exists (w ++ u ++ w1 ++ 44%N :: u'). split; [rewrite !app_assoc_reverse; reflexivity|]. constructor; auto.
    + destruct (e =? 93)%N eqn:E2; [|discriminate]. apply N.eqb_eq in E2. subst e. intros H. inv H. exists (w ++ u ++ w1).
      split; [rewrite !app_assoc_reverse; reflexivity|]. constructor; auto.
  - intros l r. rewrite jmembers_S. destruct (jws s) as [|c q] eqn:E; [discriminate|]. apply jws_cons in E as (w & -> & W).
    destruct (c =? 34)%N eqn:C1; [|discriminate]. apply N.eqb_eq in C1. subst c. destruct (jchars q) as [[k r1]|] eqn:J; [|discriminate].
    apply (jchars_sound (length q)) in J as (x & -> & X); [|lia]. destruct (jws r1) as [|c r2] eqn:E; [discriminate|]. apply jws_cons in E as (w1 & -> & W1).
    destruct (c =? 58)%N eqn:C1; [|discriminate]. apply N.eqb_eq in C1. subst c. destruct (jvalue f r2) as [[v q]|] eqn:V; [|discriminate].
    apply IH in V as (w2 & u & -> & W2 & U).
    destruct (jws q) as [|e q'] eqn:Q; [discriminate|]. apply jws_cons in Q as (w3 & -> & W3). destruct (e =? 44)%N eqn:E1.
    + apply N.eqb_eq in E1. subst e. destruct (jmembers f q') as [[l' r3]|] eqn:M; [|discriminate]. intros H. inv H. apply IH in M as (u' & -> & U').
      exists (w ++ 34%N :: x ++ 34%N :: w1 ++ 58%N :: w2 ++ u ++ w3 ++ 44%N :: u').
      split; [rewrite ?app_assoc_reverse; cbn [app]; rewrite ?app_assoc_reverse; cbn [app]; rewrite ?app_assoc_reverse; cbn [app]; rewrite ?app_assoc_reverse; reflexivity|]. constructor; auto.
    + destruct (e =? 125)%N eqn:E2; [|discriminate]. apply N.eqb_eq in E2. subst e. intros H. inv H.
      exists (w ++ 34%N :: x ++ 34%N :: w1 ++ 58%N :: w2 ++ u ++ w3).
      split; [rewrite ?app_assoc_reverse; cbn [app]; rewrite ?app_assoc_reverse; cbn [app]; rewrite ?app_assoc_reverse; cbn [app]; rewrite ?app_assoc_reverse; reflexivity|]. constructor; auto.
Qed.

(** C72. A text is read as a value exactly if the grammar says so. *)
Theorem C72_grammar : forall s j, read_json s = Some j <-> json_text j s.
Proof.
  intros s j. unfold read_json, json_text. split.
  - destruct (jvalue _ s) as [[v r]|] eqn:V; [|discriminate]. apply value_sound in V as (w & u & -> & W & U).
    destruct (jws r) as [|c q] eqn:E; [|discriminate]. intros H. inv H. destruct (jws_split r) as (w' & R & W'). rewrite E, app_nil_r in R. subst r.
    exists w, u, w'. auto.
  - intros (w & u & w' & -> & W & U & W'). rewrite (value_complete j u U); [|auto|rewrite !app_length; lia|apply num_end_blank; auto].
    assert (E : jws w' = []) by (rewrite <- (app_nil_r w'); apply jws_space; auto). rewrite E. reflexivity.
Qed.
Print Assumptions C72_grammar.

(** ** The structures a value stands for *)
(** The value of a member that is there at most once *)
Inductive has (l : list (str * json)) (k : str) : option json -> Prop :=
| has_none : ~ In k (map fst l) -> has l k None
| has_one v l1 l2 : l = l1 ++ (k, v) :: l2 -> ~ In k (map fst (l1 ++ l2)) -> has l k (Some v).
(** The members of an object, or the elements of an array as long as there are members *)
Definition members (names : list str) (j : json) (os : list (option json)) : Prop :=
  (exists l, j = JObj l /\ Forall2 (has l) names os) \/ (exists l, j = JArr l /\ length l = length names /\ os = map Some l).
Definition must {A} (P : json -> A -> Prop) (o : option json) (a : A) : Prop := exists j, o = Some j /\ P j a.
Definition may {A} (P : json -> A -> Prop) (o : option json) (x : option A) : Prop :=
  (x = None /\ (o = None \/ o = Some JNull)) \/ (exists j a, o = Some j /\ j <> JNull /\ P j a /\ x = Some a).
Definition each {A} (P : json -> A -> Prop) (j : json) (l : list A) : Prop := exists k, j = JArr k /\ Forall2 P k l.
Definition is_str (j : json) (s : str) : Prop := j = JStr s.
Definition is_bool (j : json) (b : bool) : Prop := j = JBool b.
Definition is_reference (j : json) (r : reference) : Prop := exists a b,
  members [bs "name"; bs "url"] j [a; b] /\ must is_str a (ref_name r) /\ must is_str b (ref_url r).
Definition kind_text (k : markup_kind) : str := match k with PlainText => bs "plaintext" | Markdown => bs "markdown" end.
Definition is_kind (j : json) (k : markup_kind) : Prop := j = JStr (kind_text k) \/ j = JObj [(kind_text k, JNull)].
Definition is_markup (j : json) (m : markup) : Prop := exists a b,
  members [bs "kind"; bs "value"] j [a; b] /\ must is_kind a (mk_kind m) /\ must is_str b (mk_value m).
Definition is_description (j : json) (d : description) : Prop :=
  match d with DString s => j = JStr s | DMarkup m => is_markup j m end.
Definition is_value (j : json) (v : value_data) : Prop := exists a b c,
  members [bs "name"; bs "description"; bs "references"] j [a; b; c] /\
  must is_str a (v_name v) /\ may is_description b (v_desc v) /\ may (each is_reference) c (v_refs v).
Definition is_attr (j : json) (t : attr_data) : Prop := exists a b c d e,
  members [bs "name"; bs "description"; bs "valueSet"; bs "values"; bs "references"] j [a; b; c; d; e] /\
  must is_str a (a_name t) /\ may is_description b (a_desc t) /\ may is_str c (a_set t) /\
  may (each is_value) d (a_values t) /\ may (each is_reference) e (a_refs t).
Definition is_tag (j : json) (t : tag_data) : Prop := exists a b c d e,
  members [bs "name"; bs "description"; bs "attributes"; bs "references"; bs "void"] j [a; b; c; d; e] /\
  must is_str a (t_name t) /\ may is_description b (t_desc t) /\ must (each is_attr) c (t_attrs t) /\
  may (each is_reference) d (t_refs t) /\ may is_bool e (t_void t).
Definition is_set (j : json) (s : str * list value_data) : Prop := exists a b,
  members [bs "name"; bs "values"] j [a; b] /\ must is_str a (fst s) /\ must (each is_value) b (snd s).
Definition is_number (F : float_lib) (j : json) (x : fl F) : Prop := exists n, j = JNum n /\ fl_read F n = Some x.
Definition is_file (F : float_lib) (j : json) (d : data_file F) : Prop := exists a b c e,
  members [bs "version"; bs "tags"; bs "globalAttributes"; bs "valueSets"] j [a; b; c; e] /\
  must (is_number F) a (df_version d) /\ may (each is_tag) b (hd_tags (df_data d)) /\
  may (each is_attr) c (hd_globals (df_data d)) /\ may (each is_set) e (hd_sets (df_data d)).

Definition decides {A} (r : json -> option A) (P : json -> A -> Prop) : Prop := forall j a, r j = Some a <-> P j a.
Lemma beq_true a b : beq a b = true <-> a = b.
Proof. split; [apply beq_eq|intros ->; apply beq_refl]. Qed.
Lemma count_none k l : count_key k l = 0 <-> ~ In k (map fst l).
Proof.
  unfold count_key. induction l as [|[k' v] l IH]; [cbn; split; auto; lia|]. cbn [filter map fst In]. destruct (beq k k') eqn:E.
  - apply beq_true in E. subst k'. cbn [length]. split; [lia|]. intros H. destruct H. auto.
  - rewrite IH. split; [|tauto]. intros H [J|J]; [|auto]. subst k'. rewrite beq_refl in E. discriminate.
Qed.
Lemma find_none k l : ~ In k (map fst l) -> find_key k l = None.
Proof.
  induction l as [|[k' v] l IH]; intros H; [reflexivity|]. cbn [find_key]. cbn [map fst In] in H. destruct (beq k k') eqn:E; [|apply IH; tauto].
  apply beq_true in E. subst k'. destruct H. auto.
Qed.
Lemma count_app k a b : count_key k (a ++ b) = count_key k a + count_key k b.
Proof. unfold count_key. rewrite filter_app, app_length. reflexivity. Qed.
Lemma has_spec l k o : has l k o <-> count_key k l <= 1 /\ find_key k l = o.
Proof.
  split.
  - intros [H|v l1 l2 -> H].
    + split; [apply count_none in H; lia|apply find_none; auto].
    + rewrite map_app, in_app_iff in H. split.
      * rewrite count_app. unfold count_key at 2. cbn [filter fst]. rewrite beq_refl. cbn [length]. fold (count_key k l2).
        assert (A : count_key k l1 = 0) by (apply count_none; tauto). assert (B : count_key k l2 = 0) by (apply count_none; tauto). lia.
      * assert (A : ~ In k (map fst l1)) by tauto. clear H. induction l1 as [|[k' w] l1 IH]; cbn [app find_key]; [rewrite beq_refl; reflexivity|].
        cbn [map fst In] in A. destruct (beq k k') eqn:E; [apply beq_true in E; subst k'; destruct A; auto|]. apply IH. tauto.
  - intros [C <-]. induction l as [|[k' v] l IH]; [constructor; auto|]. cbn [find_key]. unfold count_key in C. cbn [filter fst] in C. destruct (beq k k') eqn:E.
    + apply beq_true in E. subst k'. cbn [length] in C. apply (has_one _ _ v [] l); [reflexivity|]. cbn [app]. apply count_none. unfold count_key. lia.
    + specialize (IH C). assert (N : k <> k') by (intros ->; rewrite beq_refl in E; discriminate). destruct IH as [H|w l1 l2 -> H].
      * constructor. cbn. intros [J|J]; auto.
      * apply (has_one _ _ w ((k', v) :: l1) l2); [reflexivity|]. cbn. intros [J|J]; auto.
Qed.
Lemma members_spec names j os : fields_of names j = Some os <-> members names j os.
Proof.
  unfold members. destruct j as [| | | |l|l]; cbn [fields_of]; try (split; [discriminate|intros [(l & H & _)|(l & H & _)]; discriminate]).
  - destruct (length l =? length names) eqn:E.
    + apply Nat.eqb_eq in E. split; [intros H; inv H; right; eauto|]. intros [(k & H & _)|(k & H & _ & ->)]; [discriminate|]. inv H. reflexivity.
    + apply Nat.eqb_neq in E. split; [discriminate|]. intros [(k & H & _)|(k & H & L & _)]; [discriminate|]. inv H. lia.
  - assert (K : Forall2 (has l) names os <-> (forall n, In n names -> count_key n l <= 1) /\ os = map (fun n => find_key n l) names).
    { revert os. induction names as [|n names IH]; intros os.
      - split; [intros H; inv H; split; [intros n []|reflexivity]|]. intros [_ ->]. constructor.
      - split.
        + intros H. inv H. apply has_spec in H2 as [C <-]. apply IH in H4 as [G ->]. split; [|reflexivity]. intros m [<-|I]; auto.
        + intros [G ->]. cbn [map]. constructor; [apply has_spec; split; auto; apply G; left; reflexivity|]. apply IH. split; [|reflexivity]. intros m I. apply G. right. auto. }
    destruct (forallb _ names) eqn:E.
    + rewrite forallb_forall in E. split.
      * intros H. apply Some_inj in H. left. exists l. split; auto. apply K. split; [intros n I; apply Nat.leb_le; auto|auto].
      * intros [(k & H & M)|(k & H & _)]; [|discriminate]. injection H as <-. apply K in M as [_ ->]. reflexivity.
    + split; [discriminate|]. intros [(k & H & M)|(k & H & _)]; [|discriminate]. injection H as <-. apply K in M as [G _].
      assert (E' : forallb (fun n => count_key n l <=? 1) names = true) by (apply forallb_forall; intros n I; apply Nat.leb_le; auto). congruence.
Qed.

Lemma must_spec {A} r (P : json -> A -> Prop) : decides r P -> forall o a, required r o = Some a <-> must P o a.
Proof.
  intros D o a. unfold required, must. destruct o as [j|]; cbn [obind]; [rewrite (D j a)|]; split.
  - eauto.
  - intros (j' & H & K). inv H. auto.
  - discriminate.
  - intros (j' & H & _). discriminate.
Qed.
Lemma may_spec {A} r (P : json -> A -> Prop) : decides r P -> forall o x, optional r o = Some x <-> may P o x.
Proof.
  intros D o x. unfold may. assert (V : forall j, j <> JNull -> option_map Some (r j) = Some x <-> exists a, P j a /\ x = Some a).
  { intros j _. split.
    - destruct (r j) as [a|] eqn:E; [|discriminate]. cbn. intros H. inv H. apply D in E. eauto.
    - intros (a & H & ->). apply D in H. rewrite H. reflexivity. }
  destruct o as [j|]; cbn [optional].
  - assert (K : {j = JNull} + {j <> JNull}) by (destruct j; auto; right; discriminate). destruct K as [->|K].
    + split; [intros H; inv H; auto|]. intros [[-> _]|(j & a & H & Z & _)]; [reflexivity|]. inv H. destruct Z. reflexivity.
    + assert (E : match j with JNull => Some None | _ => option_map Some (r j) end = option_map Some (r j)) by (destruct j; auto; destruct K; reflexivity).
      rewrite E, (V j K). split; [intros (a & H & ->); right; eauto 6|]. intros [[_ [H|H]]|(j' & a & H & _ & H2 & ->)]; [discriminate|inv H; destruct K; reflexivity|]. inv H. eauto.
  - split; [intros H; inv H; auto|]. intros [[-> _]|(j & a & H & _)]; [reflexivity|discriminate].
Qed.
Lemma each_spec {A} r (P : json -> A -> Prop) : decides r P -> decides (read_vec r) (each P).
Proof.
  intros D j a. unfold each. assert (K : forall l a, read_all r l = Some a <-> Forall2 P l a).
  { intros l. induction l as [|x l IH]; intros b; cbn [read_all].
    - split; [intros H; inv H; constructor|intros H; inv H; reflexivity].
    - split.
      + destruct (r x) as [y|] eqn:E; [|discriminate]. cbn [obind]. destruct (read_all r l) as [k|]; [|discriminate]. cbn [obind]. intros H. inv H. constructor; [apply D; auto|apply IH; auto].
      + intros H. inv H. apply D in H2. apply IH in H4. rewrite H2. cbn [obind]. rewrite H4. reflexivity. }
  destruct j; cbn [read_vec]; try (split; [discriminate|intros (k & H & _); discriminate]).
  rewrite K. split; [eauto|]. intros (k & H & F). inv H. auto.
Qed.
Lemma str_spec : decides read_str is_str.
Proof. intros j a. unfold is_str. destruct j; cbn; split; intros H; try discriminate; inv H; reflexivity. Qed.
Lemma bool_spec : decides read_bool is_bool.
Proof. intros j a. unfold is_bool. destruct j; cbn; split; intros H; try discriminate; inv H; reflexivity. Qed.
Lemma kind_of_spec s k : kind_of s = Some k <-> s = kind_text k.
Proof.
  unfold kind_of. destruct (beq s (bs "plaintext")) eqn:A; [|destruct (beq s (bs "markdown")) eqn:B].
  - apply beq_true in A. subst s. destruct k; split; try discriminate; reflexivity.
  - apply beq_true in B. subst s. destruct k; split; try discriminate; reflexivity.
  - split; [discriminate|]. intros ->. destruct k; discriminate.
Qed.
Lemma kind_spec : decides read_kind is_kind.
Proof.
  intros j k. unfold is_kind. destruct j as [| | |s|l|l]; try (cbn; split; [discriminate|intros [H|H]; discriminate]).
  - cbn [read_kind]. rewrite kind_of_spec. split; [intros ->; auto|]. intros [H|H]; [inv H; auto|discriminate].
  - assert (K : read_kind (JObj l) = Some k <-> exists s, l = [(s, JNull)] /\ kind_of s = Some k).
    { destruct l as [|[s v] [|y l]]; cbn [read_kind]; [|destruct v|destruct v];
        first [split; [discriminate|intros (s' & H & _); inv H]|split; [eauto|intros (s' & H & K); inv H; auto]]. }
    rewrite K. split.
    + intros (s & -> & E). apply kind_of_spec in E. subst s. auto.
    + intros [H|H]; [discriminate|]. inv H. eexists. split; [reflexivity|]. apply kind_of_spec. reflexivity.
Qed.
(** One reader of a structure *)
Lemma obind_some {A B} (o : option A) (f : A -> option B) b : obind o f = Some b <-> exists a, o = Some a /\ f a = Some b.
Proof. destruct o; cbn; split; [eauto|intros (x & H & K); inv H; auto|discriminate|intros (x & H & _); discriminate]. Qed.
Lemma reference_spec : decides read_reference is_reference.
Proof.
  intros j r. unfold read_reference, is_reference. split.
  - destruct (fields_of _ j) as [os|] eqn:E; [|discriminate]. apply members_spec in E. destruct os as [|a [|b [|c os]]]; try discriminate.
    intros H. apply obind_some in H as (x & X & H). apply obind_some in H as (y & Y & H). apply Some_inj in H. subst r.
    apply (must_spec _ _ str_spec) in X, Y. eauto.
  - intros (a & b & M & X & Y). apply members_spec in M. apply (must_spec _ _ str_spec) in X, Y. rewrite M, X, Y. destruct r; reflexivity.
Qed.
Lemma markup_spec : decides read_markup is_markup.
Proof.
  intros j r. unfold read_markup, is_markup. split.
  - destruct (fields_of _ j) as [os|] eqn:E; [|discriminate]. apply members_spec in E. destruct os as [|a [|b [|c os]]]; try discriminate.
    intros H. apply obind_some in H as (x & X & H). apply obind_some in H as (y & Y & H). apply Some_inj in H. subst r.
    apply (must_spec _ _ kind_spec) in X. apply (must_spec _ _ str_spec) in Y. eauto.
  - intros (a & b & M & X & Y). apply members_spec in M. apply (must_spec _ _ kind_spec) in X. apply (must_spec _ _ str_spec) in Y. rewrite M, X, Y. destruct r; reflexivity.
Qed.
Lemma description_spec : decides read_description is_description.
Proof.
  intros j d. unfold read_description, is_description. destruct (read_str j) as [s|] eqn:E.
  - apply str_spec in E. unfold is_str in E. subst j. split.
    + intros H. inv H. reflexivity.
    + destruct d as [s'|m]; [intros H; inv H; reflexivity|]. intros (a & b & [(l & H & _)|(l & H & _)] & _); discriminate.
  - split.
    + destruct (read_markup j) as [m|] eqn:M; [|discriminate]. intros H. inv H. apply markup_spec. auto.
    + destruct d as [s|m]; [intros ->; discriminate|]. intros H. apply markup_spec in H. rewrite H. reflexivity.
Qed.
Lemma value_spec : decides read_value is_value.
Proof.
  intros j r. unfold read_value, is_value. split.
  - destruct (fields_of _ j) as [os|] eqn:E; [|discriminate]. apply members_spec in E. destruct os as [|a [|b [|c [|z os]]]]; try discriminate.
    intros H. apply obind_some in H as (x & X & H). apply obind_some in H as (y & Y & H). apply obind_some in H as (u & U & H). apply Some_inj in H. subst r.
    apply (must_spec _ _ str_spec) in X. apply (may_spec _ _ description_spec) in Y. apply (may_spec _ _ (each_spec _ _ reference_spec)) in U. exists a, b, c. auto.
  - intros (a & b & c & M & X & Y & U). apply members_spec in M. apply (must_spec _ _ str_spec) in X. apply (may_spec _ _ description_spec) in Y.
    apply (may_spec _ _ (each_spec _ _ reference_spec)) in U. rewrite M, X, Y, U. destruct r; reflexivity.
Qed.
Lemma attr_spec : decides read_attr is_attr.
Proof.
  intros j r. unfold read_attr, is_attr. split.
  - destruct (fields_of _ j) as [os|] eqn:E; [|discriminate]. apply members_spec in E. destruct os as [|a [|b [|c [|d [|e [|z os]]]]]]; try discriminate.
    intros H. apply obind_some in H as (x & X & H). apply obind_some in H as (y & Y & H). apply obind_some in H as (u & U & H).
    apply obind_some in H as (v & V & H). apply obind_some in H as (w & W & H). apply Some_inj in H. subst r.
    apply (must_spec _ _ str_spec) in X. apply (may_spec _ _ description_spec) in Y. apply (may_spec _ _ str_spec) in U.
    apply (may_spec _ _ (each_spec _ _ value_spec)) in V. apply (may_spec _ _ (each_spec _ _ reference_spec)) in W. exists a, b, c, d, e. cbn [a_name a_desc a_set a_values a_refs]. auto 8.
  - intros (a & b & c & d & e & M & X & Y & U & V & W). apply members_spec in M. apply (must_spec _ _ str_spec) in X. apply (may_spec _ _ description_spec) in Y. apply (may_spec _ _ str_spec) in U.
    apply (may_spec _ _ (each_spec _ _ value_spec)) in V. apply (may_spec _ _ (each_spec _ _ reference_spec)) in W. rewrite M, X, Y, U, V, W. destruct r; reflexivity.
Qed.
Lemma tag_spec : decides read_tag is_tag.
Proof.
  intros j r. unfold read_tag, is_tag. split.
  - destruct (fields_of _ j) as [os|] eqn:E; [|discriminate]. apply members_spec in E. destruct os as [|a [|b [|c [|d [|e [|z os]]]]]]; try discriminate.
    intros H. apply obind_some in H as (x & X & H). apply obind_some in H as (y & Y & H). apply obind_some in H as (u & U & H).
    apply obind_some in H as (v & V & H). apply obind_some in H as (w & W & H). apply Some_inj in H. subst r.
    apply (must_spec _ _ str_spec) in X. apply (may_spec _ _ description_spec) in Y. apply (must_spec _ _ (each_spec _ _ attr_spec)) in U.
    apply (may_spec _ _ (each_spec _ _ reference_spec)) in V. apply (may_spec _ _ bool_spec) in W. exists a, b, c, d, e. cbn [t_name t_desc t_attrs t_refs t_void]. auto 8.
  - intros (a & b & c & d & e & M & X & Y & U & V & W). apply members_spec in M. apply (must_spec _ _ str_spec) in X. apply (may_spec _ _ description_spec) in Y. apply (must_spec _ _ (each_spec _ _ attr_spec)) in U.
    apply (may_spec _ _ (each_spec _ _ reference_spec)) in V. apply (may_spec _ _ bool_spec) in W. rewrite M, X, Y, U, V, W. destruct r; reflexivity.
Qed.
Lemma set_spec : decides read_set is_set.
Proof.
  intros j r. unfold read_set, is_set. split.
  - destruct (fields_of _ j) as [os|] eqn:E; [|discriminate]. apply members_spec in E. destruct os as [|a [|b [|c os]]]; try discriminate.
    intros H. apply obind_some in H as (x & X & H). apply obind_some in H as (y & Y & H). apply Some_inj in H. subst r.
    apply (must_spec _ _ str_spec) in X. apply (must_spec _ _ (each_spec _ _ value_spec)) in Y. eauto.
  - intros (a & b & M & X & Y). apply members_spec in M. apply (must_spec _ _ str_spec) in X. apply (must_spec _ _ (each_spec _ _ value_spec)) in Y. rewrite M, X, Y. destruct r; reflexivity.
Qed.
Lemma number_spec F : decides (read_float F) (is_number F).
Proof. intros j x. unfold is_number. destruct j; cbn [read_float]; try (split; [discriminate|intros (n & H & _); discriminate]). split; [eauto|]. intros (n & H & K). inv H. auto. Qed.
Lemma file_spec F : decides (read_file F) (is_file F).
Proof.
  intros j r. unfold read_file, is_file. split.
  - destruct (fields_of _ j) as [os|] eqn:E; [|discriminate]. apply members_spec in E. destruct os as [|a [|b [|c [|d [|z os]]]]]; try discriminate.
    intros H. apply obind_some in H as (x & X & H). apply obind_some in H as (y & Y & H). apply obind_some in H as (u & U & H).
    apply obind_some in H as (v & V & H). apply Some_inj in H. subst r.
    apply (must_spec _ _ (number_spec F)) in X. apply (may_spec _ _ (each_spec _ _ tag_spec)) in Y. apply (may_spec _ _ (each_spec _ _ attr_spec)) in U.
    apply (may_spec _ _ (each_spec _ _ set_spec)) in V. exists a, b, c, d. cbn [df_version df_data hd_tags hd_globals hd_sets]. auto 8.
  - intros (a & b & c & d & M & X & Y & U & V). apply members_spec in M. apply (must_spec _ _ (number_spec F)) in X. apply (may_spec _ _ (each_spec _ _ tag_spec)) in Y. apply (may_spec _ _ (each_spec _ _ attr_spec)) in U.
    apply (may_spec _ _ (each_spec _ _ set_spec)) in V. rewrite M, X, Y, U, V. destruct r as [v0 [t g s]]; reflexivity.
Qed.

(** C72. A file is accepted exactly if it is a JSON text whose value stands for custom data, and what is given is what
    it stands for. *)
Theorem C72_file : forall F s d, from_str F s = Some d <-> exists j, json_text j s /\ is_file F j d.
Proof.
  intros F s d. unfold from_str. rewrite obind_some. split; intros (j & A & B); exists j.
  - split; [apply C72_grammar; auto|apply file_spec; auto].
  - split; [apply C72_grammar; auto|apply file_spec; auto].
Qed.
Print Assumptions C72_file.

(** ** What is written is read again *)
Lemma hexdig_ok n : (n < 16)%N -> hexd (hexdig n) n.
Proof. unfold hexdig, hexd. destruct (n <? 10)%N eqn:E; lia. Qed.
Lemma escape_ok c : jchar (escape1 c) [c].
Proof.
  unfold escape1.
  destruct (c =? 34)%N eqn:A; [apply N.eqb_eq in A; subst; constructor; cbn; tauto|].
  destruct (c =? 92)%N eqn:B; [apply N.eqb_eq in B; subst; constructor; cbn; tauto|].
  destruct (c =? 8)%N eqn:C; [apply N.eqb_eq in C; subst; constructor; cbn; tauto|].
  destruct (c =? 12)%N eqn:D; [apply N.eqb_eq in D; subst; constructor; cbn; tauto|].
  destruct (c =? 10)%N eqn:E; [apply N.eqb_eq in E; subst; constructor; cbn; tauto|].
  destruct (c =? 13)%N eqn:F; [apply N.eqb_eq in F; subst; constructor; cbn; tauto|].
  destruct (c =? 9)%N eqn:G; [apply N.eqb_eq in G; subst; constructor; cbn; tauto|].
  destruct (c <? 32)%N eqn:H; [|constructor; lia]. apply N.ltb_lt in H.
  assert (E1 : encode1 c = [c]) by (unfold encode1; replace (c <? 128)%N with true by lia; reflexivity). rewrite <- E1.
  constructor; [|unfold scalar; lia]. exists 0%N, 0%N, (c / 16)%N, (c mod 16)%N. unfold hexd at 1 2.
  split; [lia|]. split; [lia|]. split; [apply hexdig_ok, N.div_lt_upper_bound; lia|]. split; [apply hexdig_ok, N.mod_lt; lia|].
  pose proof (N.div_mod c 16). lia.
Qed.
Lemma write_str_ok s : jstring (flat_map escape1 s) s.
Proof. induction s as [|c s IH]; [constructor|]. cbn [flat_map]. change (c :: s) with ([c] ++ s). constructor; auto. apply escape_ok. Qed.
Fixpoint body_items (l : list json) : str := match l with [] => [] | [x] => write_json x | x :: r => write_json x ++ [44%N] ++ body_items r end.
Fixpoint body_fields (l : list (str * json)) : str :=
  match l with
  | [] => []
  | [(k, x)] => write_str k ++ [58%N] ++ write_json x
  | (k, x) :: r => write_str k ++ [58%N] ++ write_json x ++ [44%N] ++ body_fields r
  end.
Lemma write_arr l : write_json (JArr l) = 91%N :: body_items l ++ [93%N].
Proof. reflexivity. Qed.
Lemma write_obj l : write_json (JObj l) = 123%N :: body_fields l ++ [125%N].
Proof. reflexivity. Qed.
Definition good (j : json) : Prop := jtext j (write_json j).
Lemma good_str s : good (JStr s).
Proof. unfold good. cbn [write_json]. unfold write_str. cbn [app]. constructor. apply write_str_ok. Qed.
Lemma good_arr l : Forall good l -> good (JArr l).
Proof.
  intros G. unfold good. rewrite write_arr. destruct G as [|x l X G]; [apply (T_arr0 []), space_nil|]. constructor. revert x X. induction G as [|y l Y G IH]; intros x X.
  - cbn [body_items]. rewrite <- (app_nil_r (write_json x)). apply (I_one [] x); auto using space_nil.
  - change (body_items (x :: y :: l)) with (write_json x ++ [44%N] ++ body_items (y :: l)). apply (I_more [] x (write_json x) []); auto using space_nil.
Qed.
Lemma good_obj l : Forall (fun p => good (snd p)) l -> good (JObj l).
Proof.
  intros G. unfold good. rewrite write_obj. destruct G as [|[k x] l X G]; [apply (T_obj0 []), space_nil|]. constructor. revert k x X. induction G as [|[k' y] l Y G IH]; intros k x X; cbn [snd] in X.
  - cbn [body_fields]. unfold write_str. cbn [app]. rewrite app_assoc_reverse. cbn [app]. rewrite <- (app_nil_r (write_json x)).
    apply (F_one [] _ k [] [] x); auto using space_nil, write_str_ok.
  - change (body_fields ((k, x) :: (k', y) :: l)) with (write_str k ++ [58%N] ++ write_json x ++ [44%N] ++ body_fields ((k', y) :: l)).
    unfold write_str at 1. cbn [app]. rewrite app_assoc_reverse. cbn [app].
    apply (F_more [] _ k [] [] x (write_json x) []); auto using space_nil, write_str_ok.
Qed.
Lemma good_null : good JNull.
Proof. constructor. Qed.
Lemma good_opt {A} (w : A -> json) o : (forall a, good (w a)) -> good (jopt w o).
Proof. intros G. destruct o; [apply G|apply good_null]. Qed.
Lemma good_list {A} (w : A -> json) l : (forall a, good (w a)) -> good (jlist w l).
Proof. intros G. apply good_arr. apply Forall_map, Forall_forall. auto. Qed.
Ltac fields := apply good_obj; repeat (apply Forall_cons; [cbn [snd]|]); [..|constructor].
Lemma good_bool b : good (JBool b).
Proof. destruct b; constructor. Qed.
Lemma good_reference r : good (json_reference r).
Proof. fields; apply good_str. Qed.
Lemma good_description d : good (json_description d).
Proof. destruct d as [s|m]; [apply good_str|]. fields; apply good_str. Qed.
Lemma good_value v : good (json_value v).
Proof. fields; [apply good_str|apply good_opt, good_description|apply good_opt; intros; apply good_list, good_reference]. Qed.
Lemma good_attr a : good (json_attr a).
Proof. fields; [apply good_str|apply good_opt, good_description|apply good_opt, good_str|apply good_opt; intros; apply good_list, good_value|apply good_opt; intros; apply good_list, good_reference]. Qed.
Lemma good_tag t : good (json_tag t).
Proof. fields; [apply good_str|apply good_opt, good_description|apply good_list, good_attr|apply good_opt; intros; apply good_list, good_reference|apply good_opt, good_bool]. Qed.
Lemma good_set s : good (json_set s).
Proof. fields; [apply good_str|apply good_list, good_value]. Qed.

(** The values that are written stand for what they were written from *)
Definition back {A} (w : A -> json) (r : json -> option A) : Prop := forall a, r (w a) = Some a.
Lemma back_list {A} (w : A -> json) r : back w r -> back (jlist w) (read_vec r).
Proof. intros B l. unfold jlist. cbn [read_vec]. induction l as [|x l IH]; [reflexivity|]. cbn [map read_all]. rewrite (B x). cbn [obind]. rewrite IH. reflexivity. Qed.
Lemma back_opt {A} (w : A -> json) r o : back w r -> (forall a, w a <> JNull) -> optional r (Some (jopt w o)) = Some o.
Proof.
  intros B N. destruct o as [a|]; [|reflexivity]. cbn [jopt optional]. specialize (N a). specialize (B a). destruct (w a); rewrite ?B; try reflexivity. destruct N. reflexivity.
Qed.
Lemma back_str : back JStr read_str.
Proof. intros s. reflexivity. Qed.
Lemma back_bool : back JBool read_bool.
Proof. intros s. reflexivity. Qed.
Lemma back_reference : back json_reference read_reference.
Proof. intros [a b]. reflexivity. Qed.
Lemma back_description : back json_description read_description.
Proof. intros [s|[[] v]]; reflexivity. Qed.
Lemma description_null d : json_description d <> JNull.
Proof. destruct d; discriminate. Qed.
Lemma back_value : back json_value read_value.
Proof.
  intros [n d r]. unfold read_value, json_value.
  change (fields_of _ _) with (Some [Some (JStr n); Some (jopt json_description d); Some (jopt (jlist json_reference) r)]). cbn [required obind read_str].
  rewrite (back_opt _ _ d back_description description_null). cbn [obind]. rewrite (back_opt _ _ r (back_list _ _ back_reference)) by discriminate. reflexivity.
Qed.
Lemma back_attr : back json_attr read_attr.
Proof.
  intros [n d s v r]. unfold read_attr, json_attr.
  change (fields_of _ _) with (Some [Some (JStr n); Some (jopt json_description d); Some (jopt JStr s); Some (jopt (jlist json_value) v); Some (jopt (jlist json_reference) r)]). cbn [required obind read_str].
  rewrite (back_opt _ _ d back_description description_null). cbn [obind]. rewrite (back_opt _ _ s back_str) by discriminate. cbn [obind].
  rewrite (back_opt _ _ v (back_list _ _ back_value)) by discriminate. cbn [obind]. rewrite (back_opt _ _ r (back_list _ _ back_reference)) by discriminate. reflexivity.
Qed.
Lemma back_tag : back json_tag read_tag.
Proof.
  intros [n d a r v]. unfold read_tag, json_tag.
  change (fields_of _ _) with (Some [Some (JStr n); Some (jopt json_description d); Some (jlist json_attr a); Some (jopt (jlist json_reference) r); Some (jopt JBool v)]). cbn [required obind read_str].
  rewrite (back_opt _ _ d back_description description_null). cbn [obind]. rewrite (back_list _ _ back_attr a). cbn [obind].
  rewrite (back_opt _ _ r (back_list _ _ back_reference)) by discriminate. cbn [obind]. rewrite (back_opt _ _ v back_bool) by discriminate. reflexivity.
Qed.
Lemma back_set : back json_set read_set.
Proof.
  intros [n v]. unfold read_set, json_set.
  change (fields_of _ _) with (Some [Some (JStr n); Some (jlist json_value v)]). cbn [required obind read_str fst snd].
  rewrite (back_list _ _ back_value v). reflexivity.
Qed.

(** What is assumed of f32: a finite number is written as a JSON number, and read again as itself. *)
Record float_ok (F : float_lib) : Prop := {
  fo_text : forall x, fl_finite F x = true -> jnum (fl_show F x);
  fo_back : forall x, fl_finite F x = true -> fl_read F (fl_show F x) = Some x
}.
(** C72. Custom data that is written as JSON and read again is the same data, whatever its strings contain. *)
Theorem C72_round_trip : forall F d, float_ok F -> fl_finite F (df_version d) = true -> from_str F (to_string F d) = Some d.
Proof.
  intros F [x [t g s]] O FIN. cbn [df_version] in FIN. apply C72_file. exists (json_file F (mkFile x (mkData t g s))). split.
  - exists [], (to_string F (mkFile x (mkData t g s))), []. rewrite app_nil_r. split; [reflexivity|]. split; [constructor|]. split; [|constructor].
    fields; cbn [df_version df_data hd_tags hd_globals hd_sets].
    + unfold json_float. rewrite FIN. apply T_num. apply fo_text; auto.
    + apply good_opt. intros; apply good_list, good_tag.
    + apply good_opt. intros; apply good_list, good_attr.
    + apply good_opt. intros; apply good_list, good_set.
  - apply file_spec. unfold read_file, json_file. cbn [df_version df_data hd_tags hd_globals hd_sets].
    change (fields_of _ _) with (Some [Some (json_float F x); Some (jopt (jlist json_tag) t); Some (jopt (jlist json_attr) g); Some (jopt (jlist json_set) s)]).
    unfold json_float. rewrite FIN. cbn [required obind read_float]. rewrite (fo_back F O x FIN). cbn [obind].
    rewrite (back_opt _ _ t (back_list _ _ back_tag)) by discriminate. cbn [obind]. rewrite (back_opt _ _ g (back_list _ _ back_attr)) by discriminate. cbn [obind].
    rewrite (back_opt _ _ s (back_list _ _ back_set)) by discriminate. reflexivity.
Qed.
Print Assumptions C72_round_trip.
(** A version that is not finite is written as null, and the file cannot be read again. *)
Theorem C72_not_finite_refuted : forall F d, fl_finite F (df_version d) = false -> from_str F (to_string F d) = None.
Proof.
  intros F [x [t g s]] FIN. cbn [df_version] in FIN. unfold from_str.
  assert (E : read_json (to_string F (mkFile x (mkData t g s))) = Some (json_file F (mkFile x (mkData t g s)))).
  { apply C72_grammar. exists [], (to_string F (mkFile x (mkData t g s))), []. rewrite app_nil_r. split; [reflexivity|]. split; [constructor|]. split; [|constructor].
    fields; cbn [df_version df_data hd_tags hd_globals hd_sets].
    + unfold json_float. rewrite FIN. apply good_null.
    + apply good_opt. intros; apply good_list, good_tag.
    + apply good_opt. intros; apply good_list, good_attr.
    + apply good_opt. intros; apply good_list, good_set. }
  rewrite E. cbn [obind]. unfold read_file, json_file. cbn [df_version df_data hd_tags hd_globals hd_sets].
  change (fields_of _ _) with (Some [Some (json_float F x); Some (jopt (jlist json_tag) t); Some (jopt (jlist json_attr) g); Some (jopt (jlist json_set) s)]).
  unfold json_float. rewrite FIN. reflexivity.
Qed.
Print Assumptions C72_not_finite_refuted.

(** ** Members *)
(** The order of the members does not matter, and members of other names do not either. *)
Theorem C72_members : forall F l l' d,
  (Permutation l l' -> read_file F (JObj l) = Some d -> read_file F (JObj l') = Some d) /\
  (forall k v, ~ In k [bs "version"; bs "tags"; bs "globalAttributes"; bs "valueSets"] ->
     read_file F (JObj (l ++ (k, v) :: l')) = read_file F (JObj (l ++ l'))).
Proof.
  intros F l l' d.
  assert (C : forall k l l', Permutation l l' -> count_key k l = count_key k l').
  { intros k a b P. unfold count_key. induction P as [|[k1 v1] a b P IH|[k1 v1] [k2 v2] a|a b c P IH Q IH']; cbn [filter fst].
    - reflexivity.
    - destruct (beq k k1); cbn [length]; rewrite IH; reflexivity.
    - destruct (beq k k1), (beq k k2); reflexivity.
    - congruence. }
  split.
  - intros P. assert (HP : forall k o, has l k o -> has l' k o).
    { intros k o [H|v l1 l2 -> H].
      - constructor. intros I. apply H. eapply Permutation_in; [apply Permutation_map, Permutation_sym, P|exact I].
      - assert (I : In (k, v) l') by (eapply Permutation_in; [exact P|apply in_elt]). apply in_split in I as (m1 & m2 & ->).
        apply (has_one _ _ v m1 m2); [reflexivity|]. apply Permutation_app_inv in P. intros I. apply H. eapply Permutation_in; [apply Permutation_map, Permutation_sym, P|exact I]. }
    intros R. apply file_spec. apply file_spec in R as (a & b & c & e & M & R). exists a, b, c, e. split; [|exact R].
    destruct M as [(k & E & M)|(k & E & _)]; [|discriminate]. injection E as <-. left. exists l'. split; [reflexivity|].
    revert M. generalize [a; b; c; e]. generalize [bs "version"; bs "tags"; bs "globalAttributes"; bs "valueSets"]. intros ns os M. induction M; constructor; auto.
  - intros k v H. unfold read_file.
    assert (E : forall n, n <> k -> count_key n (l ++ (k, v) :: l') = count_key n (l ++ l') /\ find_key n (l ++ (k, v) :: l') = find_key n (l ++ l')).
    { intros n N. assert (B : beq n k = false) by (destruct (beq n k) eqn:B; auto; apply beq_true in B; contradiction). split.
      - rewrite !count_app. unfold count_key at 2. cbn [filter fst]. rewrite B. reflexivity.
      - induction l as [|[k1 v1] l IH]; cbn [app find_key]; [rewrite B; reflexivity|]. destruct (beq n k1); auto. }
    assert (X : fields_of [bs "version"; bs "tags"; bs "globalAttributes"; bs "valueSets"] (JObj (l ++ (k, v) :: l')) =
                fields_of [bs "version"; bs "tags"; bs "globalAttributes"; bs "valueSets"] (JObj (l ++ l'))).
    { cbn [fields_of forallb map]. cbn [In] in H.
      destruct (E (bs "version")) as [-> ->]; [intros K; apply H; auto|]. destruct (E (bs "tags")) as [-> ->]; [intros K; apply H; auto|].
      destruct (E (bs "globalAttributes")) as [-> ->]; [intros K; apply H; auto|]. destruct (E (bs "valueSets")) as [-> ->]; [intros K; apply H; auto 6|]. reflexivity. }
    rewrite X. reflexivity.
Qed.
Print Assumptions C72_members.

Lemma f2_cons {A B} (R : A -> B -> Prop) x xs y ys : Forall2 R (x :: xs) (y :: ys) -> R x y /\ Forall2 R xs ys.
Proof. intros H. inversion H. auto. Qed.
(** One tag without [attributes], even a null one, and the whole file is refused. *)
Theorem C72_attributes : forall F l tags t,
  has l (bs "tags") (Some (JArr tags)) -> In (JObj t) tags -> has t (bs "attributes") None \/ has t (bs "attributes") (Some JNull) ->
  read_file F (JObj l) = None.
Proof.
  intros F l tags t T I A. destruct (read_file F (JObj l)) as [d|] eqn:R; [exfalso|reflexivity].
  apply file_spec in R as (a & b & c & e & M & _ & R & _). destruct M as [(k & E & M)|(k & E & _)]; [|discriminate]. injection E as <-.
  apply f2_cons in M as [_ M]. apply f2_cons in M as [H2 _].
  apply has_spec in H2 as [_ H2], T as [_ T]. rewrite T in H2. subst b.
  destruct R as [[_ [R|R]]|(j & ts & E & _ & (k & J & G) & _)]; [discriminate|discriminate|]. injection E as <-. injection J as <-.
  assert (X : exists td, is_tag (JObj t) td) by (clear - I G; induction G as [|j td ks ts G1 G IH]; [destruct I|destruct I as [->|I]; eauto]).
  destruct X as (td & a' & b' & c' & d' & e' & M' & _ & _ & (j & C & k & J & _) & _). subst c' j.
  destruct M' as [(k' & E & M')|(k' & E & _)]; [|discriminate]. injection E as <-.
  apply f2_cons in M' as [_ M']. apply f2_cons in M' as [_ M']. apply f2_cons in M' as [H3 _].
  apply has_spec in H3 as [_ H3]. destruct A as [A|A]; apply has_spec in A as [_ A]; rewrite A in H3; discriminate.
Qed.
Print Assumptions C72_attributes.

(** ** The built-in data *)
(** f32 as the text of a number *)
Definition as_text : float_lib := mkFloat str (fun _ => true) (fun x => x) (fun x => Some x).
Lemma any_float F s n d v : from_str as_text s = Some (mkFile (F := as_text) n d) -> fl_read F n = Some v -> from_str F s = Some (mkFile v d).
Proof.
  intros H V. apply C72_file in H as (j & T & a & b & c & e & M & (j' & E & n' & J & H) & R). apply C72_file. exists j. split; auto.
  exists a, b, c, e. split; auto. split; [|exact R]. exists j'. split; auto. exists n'. split; auto. cbn in H. injection H as ->. exact V.
Qed.
(** Without the descriptions and references *)
Definition bare_value (v : value_data) : value_data := mkValue (v_name v) None None.
Definition bare_attr (a : attr_data) : attr_data := mkAttr (a_name a) None (a_set a) (option_map (map bare_value) (a_values a)) None.
Definition bare_tag (t : tag_data) : tag_data := mkTag (t_name t) None (map bare_attr (t_attrs t)) None (t_void t).
Definition bare (d : html_data) : html_data :=
  mkData (option_map (map bare_tag) (hd_tags d)) (option_map (map bare_attr) (hd_globals d))
         (option_map (map (fun s => (fst s, map bare_value (snd s)))) (hd_sets d)).
Lemma builtin_text_read : option_map (fun f => (df_version f, bare (df_data f))) (from_str as_text html_data_text) = Some (bs "1.1", builtin_data).
Proof. vm_compute. reflexivity. Qed.
(** C72. The text of the built-in data is custom data, so that its unwrap does not panic, and it is the data the other
    theorems are about. *)
Theorem C72_builtin : forall F v, fl_read F (bs "1.1") = Some v ->
  exists d, from_str F html_data_text = Some (mkFile v d) /\ bare d = builtin_data.
Proof.
  intros F v V. pose proof builtin_text_read as H. destruct (from_str as_text html_data_text) as [[n d]|] eqn:E; [|discriminate].
  change (Some (n, bare d) = Some (bs "1.1", builtin_data)) in H. apply Some_inj in H. apply pair_equal_spec in H as [N D]. subst n.
  exists d. split; [|exact D]. eapply any_float; eauto.
Qed.
Print Assumptions C72_builtin.

(** ** Cases *)
(** [as_text] restricted to the numbers of JSON meets [float_ok] *)
Definition num_like (s : str) : bool := match jnumber s with Some (_, []) => true | _ => false end.
Definition demo_float : float_lib := mkFloat str num_like (fun x => x) (fun x => Some x).
Example demo_float_ok : float_ok demo_float.
Proof.
  split; intros x H; [|reflexivity]. cbn in *. unfold num_like in H. destruct (jnumber x) as [[n r]|] eqn:E; [|discriminate].
  destruct r; [|discriminate]. apply jnumber_sound in E as [-> J]. rewrite app_nil_r. exact J.
Qed.
Definition demo_file : data_file demo_float :=
  mkFile (F := demo_float) (bs "1.1") (mkData
    (Some [mkTag (bs "x-y") (Some (DMarkup (mkMarkup Markdown (bs "a ""b"" \ c" ++ [10; 1; 195; 169]%N))))
             [mkAttr (bs "kind") (Some (DString (bs "d"))) (Some (bs "v")) (Some [mkValue (bs "1") None None]) None]
             (Some [mkRef (bs "MDN") (bs "https://x/")]) (Some true)])
    None (Some [(bs "v", [mkValue (bs "2") None (Some [])])])).
Example C72_round_trip_demo : fl_finite demo_float (df_version demo_file) = true /\
  to_string demo_float demo_file = bs "{""version"":1.1,""tags"":[{""name"":""x-y"",""description"":{""kind"":""markdown"",""value"":""a \""b\"" \\ c\n\u0001" ++ [195; 169]%N ++
    bs """},""attributes"":[{""name"":""kind"",""description"":""d"",""valueSet"":""v"",""values"":[{""name"":""1"",""description"":null,""references"":null}],""references"":null}],""references"":[{""name"":""MDN"",""url"":""https://x/""}],""void"":true}],""globalAttributes"":null,""valueSets"":[{""name"":""v"",""values"":[{""name"":""2"",""description"":null,""references"":[]}]}]}".
Proof. vm_compute. split; reflexivity. Qed.
Example C72_not_finite_demo : let d := mkFile (F := demo_float) (bs "inf") (mkData None None None) in
  fl_finite demo_float (df_version d) = false /\ to_string demo_float d = bs "{""version"":null,""tags"":null,""globalAttributes"":null,""valueSets"":null}".
Proof. vm_compute. split; reflexivity. Qed.
(** Escapes and white space, an unknown member, an absent one, one twice, and an array for a structure *)
Definition ok (s : str) : option html_data := option_map df_data (from_str as_text s).
Example C72_file_demo :
  ok (bs " { ""tags"" : [ ] , ""x"" : [ { } , -1.5e+3 ] , ""version"" : 1 } ") = Some (mkData (Some []) None None) /\
  ok (bs "{""version"":1,""tags"":[{""name"":""\u0061\ud83d\uDE00"",""attributes"":[]}]}") =
    Some (mkData (Some [mkTag ([97; 240; 159; 152; 128]%N) None [] None None]) None None) /\
  ok (bs "{""version"":1,""tags"":[],""tags"":[]}") = None /\
  ok (bs "{""version"":1,""tags"":[{""name"":""a""}]}") = None /\
  ok (bs "{""tags"":[]}") = None /\
  ok (bs "[1,null,null,null]") = Some (mkData None None None) /\
  ok (bs "{""version"":01}") = None /\
  ok (bs "{""version"":1,}") = None /\
  ok (bs "{""version"":1} x") = None.
Proof. vm_compute. repeat split; reflexivity. Qed.
Example C72_attributes_demo :
  let t := [(bs "name", JStr (bs "a"))] in let l := [(bs "version", JNum (bs "1")); (bs "tags", JArr [JObj t])] in
  has l (bs "tags") (Some (JArr [JObj t])) /\ has t (bs "attributes") None.
Proof.
  split; [apply (has_one _ _ _ [(bs "version", JNum (bs "1"))] []); [reflexivity|]|apply has_none]; cbn [map fst app In]; intros [H|[]]; discriminate.
Qed.
Example C72_members_demo : let l := [(bs "version", JNum (bs "1")); (bs "tags", JArr [])] in
  read_file as_text (JObj l) = Some (mkFile (F := as_text) (bs "1") (mkData (Some []) None None)) /\ Permutation l (rev l) /\
  ~ In (bs "title") [bs "version"; bs "tags"; bs "globalAttributes"; bs "valueSets"].
Proof.
  cbn zeta. split; [vm_compute; reflexivity|]. split; [apply Permutation_rev|]. cbn [In]. intros H. repeat (destruct H as [H|H]; [discriminate|]). exact H.
Qed.
Example C72_grammar_demo : json_text (JArr [JNum (bs "-0.5E2"); JNull]) (bs "[-0.5E2 , null]").
Proof. apply C72_grammar. vm_compute. reflexivity. Qed.
