(** * Well-formed documents as the formatter sees them, and what it writes *)
From Verif Require Import Base Stream Scanner BaseFacts ScannerFacts ScanProps ScanLocal Tree Parser ParseSpec ParseOrder
  Formatter FormatFacts FormatWords Render RenderFacts PropRender PropFormat.
From Coq Require Import ZifyBool ZifyNat ZifyN Permutation.

Definition is_element (h : html) : bool :=
  match h with HText _ | HComment _ | HDoctype _ _ => false | _ => true end.

(** An element with its attributes, the text between its tags, and that text again
    as the text before the first child element and each child with the text behind it. *)
Inductive view :=
| VEmpty (name : str) (attrs : list (str * option str))
| VElem (name : str) (attrs : list (str * option str)) (inner first : str) (rest : list (view * str)).

Definition plain_attrs (l : list hattr) : list (str * option str) :=
  map (fun a => (ha_name a, value_text (ha_value a))) l.
Section Group.
Variable f : html -> view.
Fixpoint group (l : list html) : str * list (view * str) :=
  match l with
  | [] => ([], [])
  | h :: r => if is_element h then ([], (f h, fst (group r)) :: snd (group r))
              else (render h ++ fst (group r), snd (group r))
  end.
End Group.
Fixpoint view_of (h : html) : view :=
  match h with
  | HText _ | HComment _ | HDoctype _ _ => VEmpty [] []
  | HElement name attrs _ body _ _ =>
      VElem name (plain_attrs attrs) (render_all body) (fst (group view_of body)) (snd (group view_of body))
  | HRaw name attrs _ s _ => VElem name (plain_attrs attrs) s s []
  | HVoid name attrs _ | HSelf name attrs _ => VEmpty name (plain_attrs attrs)
  end.
Definition groups (l : list html) := group view_of l.

Section Out.
Variable o : format_options.
Definition attr_width (x : str * option str) : nat :=
  match snd x with Some v => 1 + length (fst x) + 1 + length v | None => 1 + length (fst x) end.
Definition attrs_width (l : list (str * option str)) : nat := fold_right (fun x s => attr_width x + s) 0 l.
Definition left_width (level : nat) (name : str) (attrs : list (str * option str)) (stop : nat) : nat :=
  length (get_indent o level) + 1 + length name + attrs_width attrs + stop.
Definition too_long (n : nat) : bool := match wrap_line_length o with Some w => w <? n | None => false end.
Definition attr_sep (w : bool) (level : nat) : str := if w then [LF] ++ get_attr_indent o level else [SP].
Definition attrs_text (w : bool) (level : nat) (l : list (str * option str)) : str :=
  flat_map (fun x => attr_sep w level ++ fst x ++ match snd x with Some v => bs "=" ++ v | None => [] end) l.
Definition wraps (level : nat) (name : str) (attrs : list (str * option str)) (inner : str) : bool :=
  contains_byte LF inner || too_long (left_width level name attrs 1 + length inner + 2 + length name + 2).
Definition newline (b : bool) (level : nat) : str := if b then [LF] ++ get_indent o level else [].
Definition leaf (level : nat) (w : bool) (inner : str) : str :=
  let text := beautify_text o inner (S level) in
  if w && (0 <? length (trim text)) then [LF] ++ get_indent o (S level) ++ trim_start text else text.
Section Kids.
Variable f : view -> str.
Variable level : nat.
Fixpoint kids (l : list (view * str)) : str :=
  match l with
  | [] => []
  | (v, g) :: r => [LF] ++ get_indent o level ++ f v ++ beautify_text o g level ++ kids r
  end.
End Kids.
Fixpoint out (level : nat) (v : view) : str :=
  match v with
  | VEmpty name attrs =>
      let w := too_long (left_width level name attrs 3) in
      bs "<" ++ name ++ attrs_text w level attrs ++ (if w then [LF] ++ get_indent o level ++ bs "/>" else bs " />")
  | VElem name attrs inner first rest =>
      let w := too_long (left_width level name attrs 1) in
      let ww := wraps level name attrs inner in
      bs "<" ++ name ++ attrs_text w level attrs ++ newline w level ++ bs ">" ++
      (match rest with
       | [] => leaf level ww inner
       | _ :: _ => beautify_text o first (S level) ++ kids (out (S level)) (S level) rest
       end) ++
      newline ww level ++ bs "</" ++ name ++ bs ">"
  end.

(** ** The formatter on the tree of a document *)
Lemma insert_first x l : (forall y, In y l -> a_off (snd x) <= a_off (snd y)) -> insert_by_off x l = x :: l.
Proof.
  intros H. destruct l as [|y l]; auto. cbn [insert_by_off]. specialize (H y (or_introl eq_refl)).
  replace (a_off (snd x) <=? a_off (snd y)) with true by lia. auto.
Qed.
Lemma attrs_from_ge l : forall p y, In y (attrs_from p l) -> p <= a_off (snd y).
Proof.
  induction l as [|a l IH]; intros p y H; [destruct H|]. cbn [attrs_from In] in H. destruct H as [<-|H].
  - cbn. lia.
  - apply IH in H. lia.
Qed.
Lemma attrs_from_sorted l : forall p, sort_by_off (attrs_from p l) = attrs_from p l.
Proof.
  induction l as [|a l IH]; intros p; auto. cbn [attrs_from]. unfold sort_by_off. cbn [fold_right].
  change (fold_right insert_by_off [] ?x) with (sort_by_off x). rewrite IH. apply insert_first.
  intros y Y. apply attrs_from_ge in Y. cbn [snd a_off]. unfold render_attr in Y. rewrite app_length in Y. lia.
Qed.
Lemma attrs_from_names l : forall p, map fst (attrs_from p l) = map ha_name l.
Proof. induction l as [|a l IH]; intros p; cbn [attrs_from map fst]; rewrite ?IH; auto. Qed.
Lemma attrs_from_plain l : forall p, map (fun x => (fst x, a_value (snd x))) (attrs_from p l) = plain_attrs l.
Proof. induction l as [|a l IH]; intros p; cbn [attrs_from map fst snd a_value plain_attrs]; rewrite ?IH; auto. Qed.
Lemma fold_width l p : fold_right (fun x s => attr_len x + s) 0 (attrs_from p l) = attrs_width (plain_attrs l).
Proof.
  rewrite <- (attrs_from_plain l p). unfold attrs_width. induction (attrs_from p l) as [|x m IH]; auto.
  cbn [map fold_right]. rewrite IH. reflexivity.
Qed.
Lemma format_attrs_out n l p w level : n_attrs n = attrs_from p l -> NoDup (map ha_name l) ->
  format_attrs o w level n = attrs_text w level (plain_attrs l).
Proof.
  intros E N. unfold format_attrs, attribute_names_by_order, attrs_text. rewrite E, attrs_from_sorted, <- (attrs_from_plain l p).
  assert (G : forall x, In x (attrs_from p l) -> attr_get (fst x) (n_attrs n) = Some (snd x)).
  { intros [x a] I. rewrite E. apply attr_get_in; auto. rewrite attrs_from_names. auto. }
  revert G. generalize (attrs_from p l). induction l0 as [|x m IH]; intros G; auto.
  cbn [map flat_map fst snd]. rewrite IH by (intros; apply G; cbn; auto). f_equal. unfold format_attr, attr_sep. f_equal. f_equal.
  rewrite (G x (or_introl eq_refl)). destruct (snd x) as [[v|] off]; reflexivity.
Qed.

Section Beautify.
Variables (U : unicode) (cs : bool) (void : list str) (t : str).
Hypothesis HU : Utf8 t.
Notation good := (good U cs void).
Notation at_ := (at_ t).
Notation at_adv := (at_adv t HU).
Notation at_slice := (at_slice t HU).

Definition node_out (h : html) : Prop := forall p s level, at_ p (render h ++ s) ->
  exists n, nodes_from p h = [n] /\ n_start n = p /\ n_end n = p + length (render h) /\
    beautify_node t o n level = Ok (get_indent o level ++ out level (view_of h)).

Lemma node_wraps n p level name attrs : n_tag n = Some name -> n_attrs n = attrs_from p attrs ->
  node_attrs_is_wrap o n level = too_long (left_width level name (plain_attrs attrs) (if is_self_closing n then 3 else 1)).
Proof.
  intros T E. unfold node_attrs_is_wrap, too_long, get_left_tag_len, left_width, attrs_len. rewrite T, E, fold_width. reflexivity.
Qed.
Lemma node_wraps2 n p level name attrs inner : n_tag n = Some name -> n_attrs n = attrs_from p attrs -> is_self_closing n = false ->
  node_is_wrap o n level inner = wraps level name (plain_attrs attrs) inner.
Proof.
  intros T E S. unfold node_is_wrap, wraps, too_long, get_left_tag_len, left_width, attrs_len. rewrite T, E, fold_width, S.
  destruct (wrap_line_length o); reflexivity.
Qed.
Lemma wraps_more level name attrs inner : too_long (left_width level name attrs 1) = true -> wraps level name attrs inner = true.
Proof.
  unfold wraps, too_long. destruct (wrap_line_length o) as [w|]; [|discriminate]. intros H.
  apply orb_true_iff. right. lia.
Qed.
Lemma leaf_nil level w : leaf level w [] = [].
Proof. unfold leaf. change (beautify_text o [] (S level)) with (@nil N). change (trim []) with (@nil N). rewrite andb_false_r. reflexivity. Qed.

Lemma children_out level e s body : Forall (fun h => good h /\ (is_element h = true -> node_out h)) body ->
  forall prev g p, at_ prev (g ++ render_all body ++ s) -> Utf8 g -> p = prev + length g -> e = p + length (render_all body) ->
  if match snd (groups body) with [] => true | _ => false end
  then nodes_all p body = [] /\ fst (groups body) = render_all body
  else nodes_all p body <> [] /\ children_text t o level e prev (nodes_all p body) =
         Ok (beautify_text o (g ++ fst (groups body)) (S level) ++ kids (out (S level)) (S level) (snd (groups body))).
Proof.
  induction 1 as [|h r [G K] F IH]; intros prev g p A Ug Ep Ee; [cbn; auto|].
  unfold groups in *. cbn [group]. unfold nodes_all. cbn [nodes_with]. change (nodes_with nodes_from ?x r) with (nodes_all x r).
  cbn [render_all flat_map] in A, Ee. change (flat_map render r) with (render_all r) in A, Ee.
  pose proof (render_utf8 U cs void h G) as Uh.
  assert (A1 : at_ p (render h ++ render_all r ++ s)).
  { rewrite !app_assoc_reverse in A. rewrite Ep. apply at_adv in A; auto. }
  destruct (is_element h) eqn:EH.
  - cbn [snd fst]. destruct (K eq_refl p (render_all r ++ s) (S level) A1) as (n & N1 & N2 & N3 & N4). rewrite N1.
    cbn [app]. split; [discriminate|]. cbn [children_text]. rewrite N2, N4, N3.
    rewrite Ep at 1. rewrite (at_slice prev g (render h ++ render_all r ++ s)) by (auto; rewrite !app_assoc_reverse in A; auto).
    cbn [bind kids]. rewrite app_nil_r.
    assert (A2 : at_ (p + length (render h)) (render_all r ++ s)) by (apply at_adv in A1; auto).
    assert (Ur : Utf8 (render_all r)).
    { clear - F. induction F as [|h r [G _] F IH]; [apply u_nil|]. cbn [render_all flat_map]. apply u_app; [eapply render_utf8; eauto|auto]. }
    specialize (IH (p + length (render h)) [] (p + length (render h)) A2 u_nil ltac:(cbn; lia) ltac:(rewrite app_length in Ee; lia)).
    destruct (snd (group view_of r)) as [|x q] eqn:Q.
    + destruct IH as [I1 I2]. rewrite I1, I2. rewrite Ee, app_length, Nat.add_assoc.
      rewrite (at_slice _ _ _ A2 Ur). cbn [bind kids]. rewrite ?app_nil_r, ?app_assoc_reverse. reflexivity.
    + destruct IH as [I1 I2]. destruct (nodes_all (p + length (render h)) r) as [|n' ns] eqn:NN; [congruence|].
      rewrite I2. cbn [bind app]. rewrite ?app_assoc_reverse. reflexivity.
  - cbn [snd fst]. assert (NH : nodes_from p h = []) by (destruct h; try discriminate; reflexivity). rewrite NH. cbn [app].
    specialize (IH prev (g ++ render h) (p + length (render h))).
    rewrite !app_assoc_reverse in IH, A. specialize (IH A (u_app _ _ Ug Uh) ltac:(rewrite app_length; lia) ltac:(rewrite app_length in Ee; lia)).
    destruct (snd (group view_of r)) as [|x q] eqn:Q.
    + destruct IH as [I1 I2]. rewrite I1, I2. auto.
    + rewrite app_assoc_reverse in IH. exact IH.
Qed.
Lemma view_element name attrs pad body close pad2 : view_of (HElement name attrs pad body close pad2) =
  VElem name (plain_attrs attrs) (render_all body) (fst (groups body)) (snd (groups body)).
Proof. reflexivity. Qed.

Lemma open_out n level name attrs p : n_tag n = Some name -> n_attrs n = attrs_from p attrs -> NoDup (map ha_name attrs) ->
  open_text o n level name = get_indent o level ++ bs "<" ++ name ++
    attrs_text (too_long (left_width level name (plain_attrs attrs) (if is_self_closing n then 3 else 1))) level (plain_attrs attrs).
Proof.
  intros T E N. unfold open_text. rewrite (format_attrs_out n attrs p) by auto. rewrite (node_wraps n p level name attrs) by auto. reflexivity.
Qed.

Lemma leaf_same level w inner a : (if negb (a =? a + length inner) then if w && (0 <? length (trim (beautify_text o inner (S level))))
    then [LF] ++ get_indent o (S level) ++ trim_start (beautify_text o inner (S level))
    else beautify_text o inner (S level) else []) = leaf level w inner.
Proof.
  destruct inner as [|x inner]; [rewrite leaf_nil; cbn [length]; rewrite Nat.add_0_r, Nat.eqb_refl; reflexivity|].
  replace (a =? a + length (x :: inner)) with false by (cbn [length]; lia). reflexivity.
Qed.
Ltac to_leaf a level w inner :=
  match goal with |- context[if negb (a =? ?b) then ?x else ?y] =>
    replace (if negb (a =? b) then x else y) with (leaf level w inner) by (symmetry; apply leaf_same) end.
Lemma node_out_ok h : good h -> is_element h = true -> node_out h.
Proof.
  revert h. fix IH 1. intros h G EH p s level A.
  destruct h as [x|x|w x|name attrs pad body close pad2|name attrs pad x pad2|name attrs pad|name attrs pad]; try discriminate.
  - assert (GA : good_attrs attrs) by (inversion G; auto). assert (GB : Forall good body) by (inversion G; auto).
    assert (FB : Forall (fun h => good h /\ (is_element h = true -> node_out h)) body).
    { clear - IH GB. revert body GB. fix IHl 1. intros body GB. destruct body as [|h l]; [constructor|].
      constructor; [split; [inversion GB; auto|intros E; apply IH; [inversion GB; auto|auto]]|apply IHl; inversion GB; auto]. }
    clear IH. cbn [nodes_from]. eexists. split; [reflexivity|]. cbn [n_start n_end]. split; [reflexivity|]. split.
    { cbn [render]. change (flat_map render body) with (render_all body). rewrite !app_length. lia. }
    change (nodes_with nodes_from ?a body) with (nodes_all a body). rewrite view_element.
    set (a := p + length (start_tag name attrs pad (bs ">"))). set (b := a + length (render_all body)).
    set (n := mkNode _ _ _ _ _ _ _ _). rewrite beautify_node_eq. cbn [n n_tag n_ets n_ste n_children unwrap bind].
    assert (Uname : good_name U name) by (inversion G; auto). assert (Bpad : blank pad) by (inversion G; auto).
    assert (A1 : at_ a (render_all body ++ end_tag close pad2 ++ s)).
    { cbn [render] in A. change (flat_map render body) with (render_all body) in A. rewrite !app_assoc_reverse in A.
      apply at_adv in A; auto. apply (start_utf8 U); auto. apply u_one. reflexivity. }
    assert (Ur : Utf8 (render_all body)).
    { clear - FB. induction FB as [|h r [G _] F IH]; [apply u_nil|]. cbn [render_all flat_map]. apply u_app; [eapply render_utf8; eauto|auto]. }
    pose proof (children_out level b (end_tag close pad2 ++ s) body FB a [] a A1 u_nil ltac:(cbn; lia) eq_refl) as C.
    rewrite (open_out n level name attrs (p + 1 + length name)) by (auto; apply GA).
    rewrite (node_wraps n (p + 1 + length name) level name attrs) by auto. change (is_self_closing n) with false. cbn iota.
    cbn [out]. unfold leaf_text. cbn [n n_children].
    destruct (snd (groups body)) as [|x q] eqn:Q.
    + destruct C as [C1 C2]. rewrite C1. cbn [children_text bind length Nat.eqb andb]. unfold b at 1. rewrite (at_slice _ _ _ A1 Ur). cbn [bind].
      rewrite (node_wraps2 _ (p + 1 + length name) level name attrs) by auto.
      set (wl := too_long _). destruct (wraps level name (plain_attrs attrs) (render_all body)) eqn:W.
      * rewrite orb_true_r. to_leaf a level true (render_all body). cbn [app].
        unfold newline. rewrite ?app_assoc_reverse. destruct wl; rewrite ?app_assoc_reverse; reflexivity.
      * assert (WL : wl = false).
        { destruct wl eqn:WL; auto. unfold wl in WL. apply (wraps_more _ _ _ (render_all body)) in WL. congruence. }
        rewrite WL. cbn [orb]. to_leaf a level false (render_all body). cbn [app].
        unfold newline. rewrite ?app_assoc_reverse. reflexivity.
    + destruct C as [C1 C2]. rewrite C2. cbn [bind]. unfold b at 1. rewrite (at_slice _ _ _ A1 Ur). cbn [bind].
      rewrite (node_wraps2 _ (p + 1 + length name) level name attrs) by auto.
      destruct (nodes_all a body) as [|n0 ns]; [congruence|]. cbn [length Nat.eqb andb app]. rewrite app_nil_r.
      set (wl := too_long _). destruct (wraps level name (plain_attrs attrs) (render_all body)) eqn:W.
      * rewrite orb_true_r. unfold newline. destruct wl; rewrite ?app_assoc_reverse; reflexivity.
      * assert (WL : wl = false).
        { destruct wl eqn:WL; auto. unfold wl in WL. apply (wraps_more _ _ _ (render_all body)) in WL. congruence. }
        rewrite WL. unfold newline. cbn [orb app]. rewrite ?app_assoc_reverse. reflexivity.
  - assert (GA : good_attrs attrs) by (inversion G; auto).
    cbn [nodes_from]. eexists. split; [reflexivity|]. cbn [n_start n_end]. split; [reflexivity|]. split.
    { cbn [render]. rewrite !app_length. lia. }
    set (a := p + length (start_tag name attrs pad (bs ">"))). set (b := a + length x).
    set (n := mkNode _ _ _ _ _ _ _ _). rewrite beautify_node_eq. cbn [n n_tag n_ets n_ste n_children unwrap bind children_text].
    assert (Uname : good_name U name) by (inversion G; [apply script_name|apply style_name]). assert (Bpad : blank pad) by (inversion G; auto).
    assert (Ux : Utf8 x) by (inversion G; auto).
    assert (A1 : at_ a (x ++ end_tag name pad2 ++ s)).
    { cbn [render] in A. rewrite !app_assoc_reverse in A. apply at_adv in A; auto. apply (start_utf8 U); auto. apply u_one. reflexivity. }
    rewrite (open_out n level name attrs (p + 1 + length name)) by (auto; apply GA).
    rewrite (node_wraps n (p + 1 + length name) level name attrs) by auto. change (is_self_closing n) with false. cbn iota.
    cbn [view_of out]. unfold leaf_text. cbn [n n_children length Nat.eqb andb]. unfold b at 1. rewrite (at_slice _ _ _ A1 Ux). cbn [bind].
    rewrite (node_wraps2 _ (p + 1 + length name) level name attrs) by auto. set (wl := too_long _).
    to_leaf a level (wraps level name (plain_attrs attrs) x) x. cbn [app]. destruct (wraps level name (plain_attrs attrs) x) eqn:W.
    + rewrite orb_true_r. unfold newline. destruct wl; rewrite ?app_assoc_reverse; reflexivity.
    + assert (WL : wl = false).
      { destruct wl eqn:WL; auto. unfold wl in WL. apply (wraps_more _ _ _ x) in WL. congruence. }
      rewrite WL. unfold newline. cbn [orb app]. rewrite ?app_assoc_reverse. reflexivity.
  - assert (GA : good_attrs attrs) by (inversion G; auto).
    cbn [nodes_from]. eexists. split; [reflexivity|]. cbn [n_start n_end]. split; [reflexivity|]. split; [reflexivity|].
    set (n := mkNode _ _ _ _ _ _ _ _). rewrite beautify_node_eq. cbn [n n_tag n_ets unwrap bind].
    rewrite (open_out n level name attrs (p + 1 + length name)) by (auto; apply GA).
    rewrite (node_wraps n (p + 1 + length name) level name attrs) by auto. change (is_self_closing n) with true. cbn iota.
    cbn [view_of out]. rewrite ?app_assoc_reverse. reflexivity.
  - assert (GA : good_attrs attrs) by (inversion G; auto).
    cbn [nodes_from]. eexists. split; [reflexivity|]. cbn [n_start n_end]. split; [reflexivity|]. split; [reflexivity|].
    set (n := mkNode _ _ _ _ _ _ _ _). rewrite beautify_node_eq. cbn [n n_tag n_ets unwrap bind].
    rewrite (open_out n level name attrs (p + 1 + length name)) by (auto; apply GA).
    rewrite (node_wraps n (p + 1 + length name) level name attrs) by auto. change (is_self_closing n) with true. cbn iota.
    cbn [view_of out]. rewrite ?app_assoc_reverse. reflexivity.
Qed.
End Beautify.
End Out.
