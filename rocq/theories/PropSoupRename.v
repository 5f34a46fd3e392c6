(** * C86: renaming among tags in any order *)
From Verif Require Import SelectionRange Base Stream Scanner BaseFacts ScannerFacts ScanStep ScanProps ScanPanic ScanShape
  Tree Parser ParseSpec ParseInv ParseOrder PropParse TreeFacts PropTree ParseEnd PropEnd TextDoc PropDoc TagServices PropTags
  Render RenderFacts PropRender PropRename PropTagDoc PropSoup PropSoupTyping PropSoupTags.
From Coq Require Import ZifyBool ZifyNat ZifyN.

(** ** Specification *)
Section Spec.
Variables (U : unicode) (cs : bool) (new : str).
(** No tag of the sequence has the new name. *)
Definition unused (x : part) : Prop :=
  match x with Opening n _ _ | Closing n _ => ~ Render.same U cs n new | Piece _ => True end.
(** The element from [a], with the end tag at [b] if it has one, and the number [w] of bytes of its name. *)
Variables (a : nat) (b : option nat) (w : nat).
Definition is_end (o : nat) : bool := match b with Some y => o =? y | None => false end.
(** The sequence, from offset [o], with the name in these two tags replaced. *)
Definition swap (o : nat) (x : part) : part :=
  match x with
  | Opening n at' pad => Opening (if o =? a then new else n) at' pad
  | Closing n pad => Closing (if is_end o then new else n) pad
  | Piece h => Piece h
  end.
Fixpoint swapped (o : nat) (l : list part) : list part :=
  match l with [] => [] | x :: r => swap o x :: swapped (o + length (part_text x)) r end.
(** Where an offset is after the names before it were replaced. *)
Definition behind (x : nat) : bool := match b with Some y => y <? x | None => false end.
Definition moved (x x' : nat) : Prop :=
  x' + (if a <? x then w else 0) + (if behind x then w else 0) =
  x + (if a <? x then length new else 0) + (if behind x then length new else 0).
Definition opt_moved (x x' : option nat) : Prop :=
  match x, x' with Some y, Some y' => moved y y' | None, None => True | _, _ => False end.
Definition attr_moved (x x' : str * attribute) : Prop :=
  fst x' = fst x /\ a_value (snd x') = a_value (snd x) /\ moved (a_off (snd x)) (a_off (snd x')).
(** The same element: it has its places, its attributes, its children, and its name unless it is the renamed one. *)
Inductive same_but : node -> node -> Prop :=
| Same n n' : moved (n_start n) (n_start n') -> moved (n_end n) (n_end n') -> n_closed n' = n_closed n ->
    opt_moved (n_ste n) (n_ste n') -> opt_moved (n_ets n) (n_ets n') ->
    n_tag n' = (if n_start n =? a then Some new else n_tag n) ->
    Forall2 attr_moved (n_attrs n) (n_attrs n') -> Forall2 same_but (n_children n) (n_children n') -> same_but n n'.
End Spec.

(** ** Proof *)
Lemma Forall2_impl {A B} (P Q : A -> B -> Prop) l l' : (forall x y, P x y -> Q x y) -> Forall2 P l l' -> Forall2 Q l l'.
Proof. intros H. induction 1; constructor; auto. Qed.
Section Ren.
Variables (U : unicode) (cs : bool) (void : list str) (new : str) (a : nat) (b : option nat) (w : nat).
Notation moved := (moved new a b w).
Notation swap := (swap new a b).
Notation swapped := (swapped new a b).
Notation same := (Render.same U cs).
Definition clear (o k : nat) : Prop :=
  ~ (o <= a < o + k) /\ match b with Some y => ~ (o <= y < o + k) | None => True end.
Definition part_ok (o : nat) (x : part) : Prop :=
  let k := length (part_text x) in
  match x with
  | Piece _ => clear o k
  | Opening n _ _ => (o <= a < o + k -> a = o /\ length n = w) /\ match b with Some y => ~ (o <= y < o + k) | None => True end
  | Closing n _ => ~ (o <= a < o + k) /\ match b with Some y => o <= y < o + k -> y = o /\ length n = w | None => True end
  end.
Fixpoint parts_ok (o : nat) (l : list part) : Prop :=
  match l with [] => True | x :: r => part_ok o x /\ parts_ok (o + length (part_text x)) r end.
Lemma parts_ok_app l m : forall o, parts_ok o (l ++ m) <-> parts_ok o l /\ parts_ok (o + length (soup_text l)) m.
Proof.
  induction l as [|x l IH]; intros o; cbn [app parts_ok]; [cbn; rewrite Nat.add_0_r; tauto|].
  rewrite IH. unfold soup_text. cbn [flat_map]. rewrite app_length, Nat.add_assoc. tauto.
Qed.
Lemma swapped_app l m : forall o, swapped o (l ++ m) = swapped o l ++ swapped (o + length (soup_text l)) m.
Proof.
  induction l as [|x l IH]; intros o; cbn [app PropSoupRename.swapped]; [cbn; rewrite Nat.add_0_r; reflexivity|].
  rewrite IH. unfold soup_text. cbn [flat_map]. rewrite app_length, Nat.add_assoc. reflexivity.
Qed.
Ltac mv := unfold PropSoupRename.moved, behind, is_end, clear in *; destruct b;
  repeat (match goal with
    | |- context [?x <? ?y] => destruct (Nat.ltb_spec x y) | H : context [?x <? ?y] |- _ => destruct (Nat.ltb_spec x y)
    | |- context [?x =? ?y] => destruct (Nat.eqb_spec x y) | H : context [?x =? ?y] |- _ => destruct (Nat.eqb_spec x y) end); try lia.
Lemma moved_eq x y x' y' : moved x y -> x' = x -> y' = y -> moved x' y'.
Proof. intros H -> ->. exact H. Qed.
Lemma moved_clear o o' k j : moved o o' -> clear o k -> j <= k -> moved (o + j) (o' + j).
Proof. intros M C J. mv. Qed.
Lemma opening_moved o o' n at' pad j : part_ok o (Opening n at' pad) -> moved o o' -> 1 + length n + j <= length (start_tag n at' pad (bs ">")) -> 
  moved (o + 1 + length n + j) (o' + 1 + length (if o =? a then new else n) + j).
Proof. intros [A B] M J. cbn [part_text] in A, B. set (k := length (start_tag n at' pad (bs ">"))) in *. mv. Qed.
Lemma closing_moved o o' n pad j : part_ok o (Closing n pad) -> moved o o' -> 2 + length n + j <= length (end_tag n pad) ->
  moved (o + 2 + length n + j) (o' + 2 + length (if is_end b o then new else n) + j).
Proof. intros [A B] M J. cbn [part_text] in A, B. set (k := length (end_tag n pad)) in *. unfold is_end. mv. Qed.
Lemma start_length n at' pad stop : length (start_tag n at' pad stop) = 1 + length n + (length (render_attrs at') + length pad + length stop).
Proof. unfold start_tag. rewrite !app_length. change (length (bs "<")) with 1. lia. Qed.
Lemma end_length n pad : length (end_tag n pad) = 2 + length n + (length pad + 1).
Proof. unfold end_tag. rewrite !app_length. change (length (bs "</")) with 2. change (length (bs ">")) with 1. lia. Qed.
Lemma attrs_moved at' : forall q q', (forall j, j <= length (render_attrs at') -> moved (q + j) (q' + j)) ->
  Forall2 (attr_moved new a b w) (attrs_from q at') (attrs_from q' at').
Proof.
  induction at' as [|x r IH]; intros q q' H; cbn [attrs_from]; constructor.
  - split; [reflexivity|]. split; [reflexivity|]. cbn [snd a_off]. apply H. unfold render_attrs. cbn [flat_map]. unfold render_attr. rewrite !app_length. lia.
  - apply IH. intros j J. rewrite <- !Nat.add_assoc. apply H. unfold render_attrs in *. cbn [flat_map]. rewrite app_length. lia.
Qed.
Lemma piece_same h o o' : tags_only (Piece h) -> part_ok o (Piece h) -> moved o o' -> 0 < length (render h) ->
  Forall2 (same_but new a b w) (nodes_from o h) (nodes_from o' h).
Proof.
  intros T C M Z. unfold part_ok in C. cbn [part_text] in C.
  assert (MV : forall j, j <= length (render h) -> moved (o + j) (o' + j)) by (intros j J; eapply moved_clear; eauto).
  assert (NA : (o =? a) = false) by (destruct C as [C _]; lia).
  destruct h as [y|y|w' y|name attrs pad bd close pad2|name attrs pad y pad2|name attrs pad|name attrs pad]; cbn [tags_only] in T; try destruct T;
    cbn [nodes_from]; repeat constructor; cbn [n_start n_end n_closed n_ste n_ets n_tag n_attrs n_children opt_moved];
    cbn [render] in MV; rewrite ?app_length in MV; rewrite ?NA; auto; try apply I; rewrite <- ?Nat.add_assoc; try apply MV; try lia;
    apply attrs_moved; intros j J; rewrite <- !Nat.add_assoc; apply MV; rewrite start_length; lia.
Qed.

Lemma same_sym x y : same x y -> same y x.
Proof. unfold Render.same. destruct cs; auto. Qed.
Lemma in_rel l l' y : Forall2 (fun y y' => y' = y \/ y' = new) l l' -> In y l' -> In y l \/ y = new.
Proof. induction 1 as [|u v l l' H _ IH]; intros I; [destruct I|]. destruct I as [<-|I]; [destruct H as [-> | ->]; [left; left|]; auto|]. destruct (IH I); [left; right|]; auto. Qed.

(** The end tags of nodes are inside of them. *)
Lemma denotes_ets around o l e left ns : denotes U cs around o l e left ns -> Forall tags_only l ->
  forall m y, In m (flat_map preorder ns) -> n_ets m = Some y -> n_start m < y < n_end m.
Proof.
  induction 1 as [around o|around o h l e left ns D IH|around o name pad l e left ns N D IH|
    around o name attrs pad body b1 open kids close pad2 l e left ns a1 z D1 IH1 NO SN D2 IH2|around o name attrs pad body e open kids a1 D IH];
    intros F m y I Y.
  - destruct I.
  - apply Forall_cons_iff in F as [Fh Fl]. rewrite flat_map_app in I. apply in_app_iff in I as [I|I]; [|apply IH; auto].
    destruct h as [u|u|w' u|name attrs pad bd close pad2|name attrs pad u pad2|name attrs pad|name attrs pad]; cbn [tags_only] in Fh; try destruct Fh;
      cbn [nodes_from flat_map] in I; try (destruct I; fail); rewrite app_nil_r in I; apply preorder_in in I as [->|I]; try (destruct I; fail); cbn [n_ets n_start n_end] in *; try discriminate Y.
    apply Some_inj in Y. subst y. rewrite end_length, start_length. lia.
  - apply Forall_cons_iff in F as [_ F]. eauto.
  - apply Forall_cons_iff in F as [_ F]. apply Forall_app in F as [Fb F]. apply Forall_cons_iff in F as [_ Fl].
    cbn [flat_map] in I. apply in_app_iff in I as [I|I]; [|eauto]. apply preorder_in in I as [->|I]; [|eauto]. cbn [n_ets n_start n_end] in *.
    apply Some_inj in Y. subst y. pose proof (denotes_end _ _ _ _ _ _ _ _ D1). subst z a1. rewrite start_length, end_length in *. lia.
  - apply Forall_cons_iff in F as [_ Fb]. cbn [flat_map] in I. rewrite app_nil_r in I. apply preorder_in in I as [->|I]; [discriminate Y|eauto].
Qed.

Definition consistent (o e : nat) (ns : list node) : Prop :=
  (forall m, In m (flat_map preorder ns) -> n_start m = a -> n_ets m = b) /\
  (forall m y, In m (flat_map preorder ns) -> b = Some y -> n_ets m = Some y -> n_start m = a) /\
  (forall y, b = Some y -> o <= y < e -> exists m, In m (flat_map preorder ns) /\ n_ets m = Some y).
Lemma soup_renamed around o l e left ns : denotes U cs around o l e left ns -> Forall (good_part U cs void) l -> Forall tags_only l ->
  Forall (unused U cs new) l -> parts_ok o l -> consistent o e ns ->
  forall o' around', moved o o' -> Forall2 (fun y y' => y' = y \/ y' = new) around around' ->
  exists e' left' ns', denotes U cs around' o' (swapped o l) e' left' ns' /\ moved e e' /\
    Forall2 (fun y y' => ~ same y new /\ (y' = y \/ y' = new /\ o <= a < e)) left left' /\ Forall2 (same_but new a b w) ns ns'.
Proof.
  induction 1 as [around o|around o h l e left ns D IH|around o name pad l e left ns N D IH|
    around o name attrs pad body b1 open kids close pad2 l e left ns a1 z D1 IH1 NO SN D2 IH2|around o name attrs pad body e open kids a1 D IH];
    intros G T F P K o' around' M A.
  - exists o', [], []. cbn [PropSoupRename.swapped]. split; [constructor|]. auto.
  - apply Forall_cons_iff in G as [Gh Gl]. apply Forall_cons_iff in T as [Th Tl]. apply Forall_cons_iff in F as [_ Fl]. cbn [parts_ok] in P. destruct P as [Ph Pl].
    pose proof (part_long _ _ _ _ Gh) as LH. cbn [part_text] in *. pose proof (denotes_end _ _ _ _ _ _ _ _ D) as DE.
    assert (M' : moved (o + length (render h)) (o' + length (render h))) by (unfold part_ok in Ph; eapply moved_clear; eauto).
    destruct K as (K1 & K2 & K3). rewrite flat_map_app in K1, K2, K3.
    assert (K' : consistent (o + length (render h)) e ns).
    { split; [intros m I; apply K1, in_app_iff; auto|]. split; [intros m y I; apply K2, in_app_iff; auto|].
      intros y Y B. destruct (K3 y Y ltac:(lia)) as (m & I & E). exists m. split; auto. apply in_app_iff in I as [I|I]; auto. exfalso.
      destruct (piece_bounds _ _ _ _ _ _ Gh I) as (B1 & B2 & _).
      assert (DP : denotes U cs [] o [Piece h] (o + length (render h)) [] (nodes_from o h ++ [])) by (constructor; constructor).
      pose proof (denotes_ets _ _ _ _ _ _ DP ltac:(constructor; auto) m y ltac:(rewrite flat_map_app; apply in_app_iff; auto) E). lia. }
    destruct (IH Gl Tl Fl Pl K' _ around' M' A) as (e' & left' & ns' & R1 & R2 & R3 & R4).
    exists e', left', (nodes_from o' h ++ ns'). cbn [PropSoupRename.swapped PropSoupRename.swap part_text]. split; [constructor; exact R1|]. split; [auto|]. split.
    + eapply Forall2_impl; [|exact R3]. intros y y' (Q1 & Q2). split; auto. destruct Q2 as [Q2|[Q2 Q3]]; [auto|right; split; [auto|lia]].
    + apply Forall2_app; [apply piece_same; auto|auto].
  - apply Forall_cons_iff in G as [Gh Gl]. apply Forall_cons_iff in T as [_ Tl]. apply Forall_cons_iff in F as [Fh Fl]. cbn [parts_ok] in P. destruct P as [Ph Pl].
    cbn [part_text unused] in *. pose proof (denotes_end _ _ _ _ _ _ _ _ D) as DE. pose proof (closing_long name pad) as LC. destruct K as (K1 & K2 & K3).
    pose proof (denotes_bounds U cs void _ _ _ _ _ _ D Gl) as DB.
    assert (NE : is_end b o = false).
    { unfold is_end. destruct b as [y|] eqn:Y; [|auto]. apply not_true_iff_false. intros Q. apply Nat.eqb_eq in Q. subst y.
      destruct (K3 o eq_refl ltac:(lia)) as (m & I & E). pose proof (denotes_ets _ _ _ _ _ _ D Tl m o I E). specialize (DB m I). lia. }
    assert (M' : moved (o + length (end_tag name pad)) (o' + length (end_tag name pad))).
    { pose proof (closing_moved o o' name pad (length pad + 1) Ph M ltac:(rewrite end_length; lia)) as Q. rewrite NE in Q. rewrite end_length.
      replace (o + (2 + length name + (length pad + 1))) with (o + 2 + length name + (length pad + 1)) by lia.
      replace (o' + (2 + length name + (length pad + 1))) with (o' + 2 + length name + (length pad + 1)) by lia. exact Q. }
    destruct (IH Gl Tl Fl Pl) with (o' := o' + length (end_tag name pad)) (around' := around') as (e' & left' & ns' & R1 & R2 & R3 & R4); auto.
    { split; [auto|]. split; [auto|]. intros y Y B. apply K3; [auto|lia]. }
    exists e', left', ns'. cbn [PropSoupRename.swapped PropSoupRename.swap part_text]. rewrite NE. split.
    + constructor; [|exact R1]. intros y I S'. destruct (in_rel _ _ _ A I) as [J| ->]; [apply (N y J S')|apply (Fh S')].
    + split; [auto|]. split; [|auto]. eapply Forall2_impl; [|exact R3]. intros y y' (Q1 & Q2). split; auto. destruct Q2 as [Q2|[Q2 Q3]]; [auto|right; split; [auto|lia]].
  - apply Forall_cons_iff in G as [Gh G]. apply Forall_app in G as [Gb G]. apply Forall_cons_iff in G as [Gc Gl].
    apply Forall_cons_iff in T as [_ T]. apply Forall_app in T as [Tb T]. apply Forall_cons_iff in T as [_ Tl].
    apply Forall_cons_iff in F as [Fh F]. apply Forall_app in F as [Fb F]. apply Forall_cons_iff in F as [Fc Fl]. cbn [unused] in Fh, Fc.
    cbn [parts_ok] in P. destruct P as [Ph P]. apply parts_ok_app in P as [Pb P]. cbn [parts_ok] in P. destruct P as [Pc Pl]. cbn [part_text] in Pb, Pc, Pl. fold a1 in Pb, Pc, Pl.
    pose proof (denotes_end _ _ _ _ _ _ _ _ D1) as DE1. pose proof (denotes_end _ _ _ _ _ _ _ _ D2) as DE2. rewrite <- DE1 in Pc, Pl. fold z in Pl.
    pose proof (denotes_bounds U cs void _ _ _ _ _ _ D1 Gb) as DB1. pose proof (denotes_bounds U cs void _ _ _ _ _ _ D2 Gl) as DB2.
    pose proof (opening_long name attrs pad) as LO. pose proof (closing_long close pad2) as LC.
    destruct K as (K1 & K2 & K3). cbn [flat_map] in K1, K2, K3. set (n := mkNode _ _ _ _ _ _ _ _) in *.
    assert (In0 : In n (preorder n ++ flat_map preorder ns)) by (apply in_app_iff; left; apply preorder_in; auto).
    assert (InK : forall m, In m (flat_map preorder kids) -> In m (preorder n ++ flat_map preorder ns)) by (intros m I; apply in_app_iff; left; apply preorder_in; right; exact I).
    assert (InR : forall m, In m (flat_map preorder ns) -> In m (preorder n ++ flat_map preorder ns)) by (intros m I; apply in_app_iff; auto).
    assert (EQ : is_end b b1 = (o =? a)).
    { apply eq_true_iff_eq. rewrite Nat.eqb_eq. unfold is_end. split.
      - destruct b as [y|] eqn:Y; [|discriminate]. intros Q. apply Nat.eqb_eq in Q. subst y. apply (K2 n b1 In0 eq_refl eq_refl).
      - intros Q. pose proof (K1 n In0 Q) as Q'. cbn [n n_ets] in Q'. rewrite <- Q'. apply Nat.eqb_refl. }
    set (name' := if o =? a then new else name) in *. set (close' := if o =? a then new else close).
    set (a1' := o' + length (start_tag name' attrs pad (bs ">"))).
    assert (MA : moved a1 a1').
    { pose proof (opening_moved o o' name attrs pad (length (render_attrs attrs) + length pad + 1) Ph M ltac:(rewrite start_length; change (length (bs ">")) with 1; lia)) as Q.
      unfold a1, a1'. rewrite !start_length. change (length (bs ">")) with 1. eapply moved_eq; [exact Q|lia|unfold name'; destruct (o =? a); lia]. }
    destruct (IH1 Gb Tb Fb Pb) with (o' := a1') (around' := name' :: around') as (b1' & open' & kids' & R1 & R2 & R3 & R4); auto.
    { split; [intros m I; apply K1, InK, I|]. split; [intros m y I; apply K2, InK, I|]. intros y Y B. destruct (K3 y Y ltac:(unfold z, a1 in *; lia)) as (m & I & E). exists m. split; auto.
      apply in_app_iff in I as [I|I]; [apply preorder_in in I as [->|I]; [|exact I]|]; exfalso.
      - cbn [n n_ets] in E. apply Some_inj in E. lia.
      - pose proof (denotes_ets _ _ _ _ _ _ D2 Tl m y I E). specialize (DB2 m I). unfold z in *. lia. }
    { constructor; auto. unfold name'. destruct (o =? a); auto. }
    set (z' := b1' + length (end_tag close' pad2)).
    assert (MZ : moved z z').
    { pose proof (closing_moved b1 b1' close pad2 (length pad2 + 1) Pc R2 ltac:(rewrite end_length; lia)) as Q. rewrite EQ in Q.
      unfold z, z'. rewrite !end_length. eapply moved_eq; [exact Q|lia|unfold close'; destruct (o =? a); lia]. }
    destruct (IH2 Gl Tl Fl Pl) with (o' := z') (around' := around') as (e' & left' & ns' & S1 & S2 & S3 & S4); auto.
    { split; [intros m I; apply K1, InR, I|]. split; [intros m y I; apply K2, InR, I|]. intros y Y B. destruct (K3 y Y ltac:(unfold z, a1 in *; lia)) as (m & I & E). exists m. split; auto.
      apply in_app_iff in I as [I|I]; [|exact I]. apply preorder_in in I as [->|I]; exfalso.
      - cbn [n n_ets] in E. apply Some_inj in E. unfold z in *. lia.
      - pose proof (denotes_ets _ _ _ _ _ _ D1 Tb m y I E). specialize (DB1 m I). unfold z in *. lia. }
    exists e', left', (mkNode (Some name') o' z' kids' true (Some a1') (Some b1') (attrs_from (o' + 1 + length name') attrs) :: ns').
    cbn [PropSoupRename.swapped PropSoupRename.swap part_text]. fold name'. fold a1. rewrite swapped_app. cbn [PropSoupRename.swapped PropSoupRename.swap part_text]. rewrite <- DE1, EQ. fold close'. fold z. split.
    { apply (D_closed U cs around' o' name' attrs pad (swapped a1 body) b1' open' kids' close' pad2 (swapped z l)); auto.
      - intros y I S'. assert (J : exists y0, In y0 open /\ ~ same y0 new /\ (y = y0 \/ y = new /\ a1 <= a < b1)).
        { clear - I R3. induction R3 as [|u v open open' H _ IH]; [destruct I|]. destruct I as [<-|I]; [exists u; split; [left; auto|exact H]|].
          destruct (IH I) as (y0 & J & Q). exists y0. split; [right; auto|auto]. }
        destruct J as (y0 & J & J2 & [->|[-> J3]]).
        + unfold close' in S'. destruct (o =? a); [apply J2, same_sym; exact S'|apply (NO y0 J S')].
        + unfold close' in S'. destruct (o =? a) eqn:E; [unfold a1 in *; lia|apply (Fc S')].
      - unfold close', name'. destruct (o =? a); [unfold Render.same; destruct cs; reflexivity|exact SN]. }
    split; [auto|]. split.
    + eapply Forall2_impl; [|exact S3]. intros y y' (Q1 & Q2). split; auto. destruct Q2 as [Q2|[Q2 Q3]]; [auto|right; split; [auto|unfold z, a1 in *; lia]].
    + constructor; [|auto]. constructor; cbn [n n_start n_end n_closed n_ste n_ets n_tag n_attrs n_children opt_moved]; auto.
      * unfold name'. destruct (o =? a); reflexivity.
      * apply attrs_moved. intros j J. apply (opening_moved o o' name attrs pad j Ph M). rewrite start_length. lia.
  - apply Forall_cons_iff in G as [Gh Gb]. apply Forall_cons_iff in T as [_ Tb]. apply Forall_cons_iff in F as [Fh Fb]. cbn [unused] in Fh.
    cbn [parts_ok] in P. destruct P as [Ph Pb]. cbn [part_text] in Pb. fold a1 in Pb.
    pose proof (denotes_end _ _ _ _ _ _ _ _ D) as DE1. pose proof (opening_long name attrs pad) as LO.
    destruct K as (K1 & K2 & K3). cbn [flat_map] in K1, K2, K3. rewrite app_nil_r in K1, K2, K3. set (n := mkNode _ _ _ _ _ _ _ _) in *.
    assert (InK : forall m, In m (flat_map preorder kids) -> In m (preorder n)) by (intros m I; apply preorder_in; right; exact I).
    set (name' := if o =? a then new else name) in *.
    set (a1' := o' + length (start_tag name' attrs pad (bs ">"))).
    assert (MA : moved a1 a1').
    { pose proof (opening_moved o o' name attrs pad (length (render_attrs attrs) + length pad + 1) Ph M ltac:(rewrite start_length; change (length (bs ">")) with 1; lia)) as Q.
      unfold a1, a1'. rewrite !start_length. change (length (bs ">")) with 1. eapply moved_eq; [exact Q|lia|unfold name'; destruct (o =? a); lia]. }
    destruct (IH Gb Tb Fb Pb) with (o' := a1') (around' := name' :: around') as (e' & open' & kids' & R1 & R2 & R3 & R4); auto.
    { split; [intros m I; apply K1, InK, I|]. split; [intros m y I; apply K2, InK, I|]. intros y Y B. destruct (K3 y Y ltac:(unfold a1 in *; lia)) as (m & I & E). exists m. split; auto.
      apply preorder_in in I as [->|I]; [discriminate E|exact I]. }
    { constructor; auto. unfold name'. destruct (o =? a); auto. }
    exists e', (name' :: open'), [mkNode (Some name') o' e' kids' false (Some a1') None (attrs_from (o' + 1 + length name') attrs)].
    cbn [PropSoupRename.swapped PropSoupRename.swap part_text]. fold name'. fold a1. split; [apply D_open; exact R1|]. split; [auto|]. split.
    + constructor.
      * split; [auto|]. unfold name'. destruct (o =? a) eqn:E; [right; split; [auto|unfold a1 in *; lia]|auto].
      * eapply Forall2_impl; [|exact R3]. intros y y' (Q1 & Q2). split; auto. destruct Q2 as [Q2|[Q2 Q3]]; [auto|right; split; [auto|unfold a1 in *; lia]].
    + constructor; [|constructor]. constructor; cbn [n n_start n_end n_closed n_ste n_ets n_tag n_attrs n_children opt_moved]; auto.
      * unfold name'. destruct (o =? a); reflexivity.
      * apply attrs_moved. intros j J. apply (opening_moved o o' name attrs pad j Ph M). rewrite start_length. lia.
Qed.
End Ren.

(** ** The parts of the element *)
Section Parts.
Variables (U : unicode) (cs : bool) (void : list str).
Lemma part_at_apart l o x p y : Forall (good_part U cs void) l -> part_at l o x -> part_at l p y -> o <= p < o + length (part_text x) -> o = p /\ x = y.
Proof.
  intros G (l1 & l2 & E1 & O) (k1 & k2 & E2 & P) L. rewrite E1 in E2, G. clear l E1.
  revert k1 E2 o O p P L. induction l1 as [|u l1 IH]; intros k1 E o O p P L; cbn [app] in *.
  - destruct k1 as [|v k1]; cbn [app] in E; injection E as E E'; [subst; auto|]. exfalso. subst v o p. unfold soup_text in L. cbn [flat_map length] in L. rewrite app_length in L. lia.
  - apply Forall_cons_iff in G as [Gu G]. apply part_long in Gu. destruct k1 as [|v k1]; cbn [app] in E.
    + exfalso. subst o p. unfold soup_text in L. cbn [flat_map length] in L. rewrite app_length in L. lia.
    + injection E as <- E. unfold soup_text in O, P. cbn [flat_map] in O, P. rewrite app_length in O, P.
      destruct (IH G k1 E _ eq_refl _ eq_refl) as [Q ->]; [unfold soup_text; lia|]. split; auto. unfold soup_text in Q. lia.
Qed.
Lemma part_at_split l o x p y : Forall (good_part U cs void) l -> part_at l o x -> part_at l p y -> o < p ->
  exists l1 l2 l3, l = l1 ++ x :: l2 ++ y :: l3 /\ o = length (soup_text l1) /\ p = length (soup_text l1) + length (part_text x) + length (soup_text l2).
Proof.
  intros G (l1 & l2 & E1 & O) (k1 & k2 & E2 & P) L. exists l1. rewrite E1 in E2, G |- *. clear l E1.
  revert k1 E2 o O p P L. induction l1 as [|u l1 IH]; intros k1 E o O p P L; cbn [app] in *.
  - destruct k1 as [|v k1]; cbn [app] in E; injection E as E E'; [exfalso; subst; lia|]. subst v. exists k1, k2. split; [rewrite E'; reflexivity|]. split; auto.
    rewrite P. unfold soup_text. cbn [flat_map length]. rewrite app_length. lia.
  - apply Forall_cons_iff in G as [Gu G]. apply part_long in Gu. destruct k1 as [|v k1]; cbn [app] in E; [exfalso; subst p; cbn in L; lia|].
    injection E as <- E. unfold soup_text in O, P. cbn [flat_map] in O, P. rewrite app_length in O, P.
    destruct (IH G k1 E _ eq_refl _ eq_refl) as (m2 & m3 & Q1 & Q2 & Q3); [unfold soup_text; lia|]. exists m2, m3.
    split; [f_equal; exact Q1|]. unfold soup_text in *. cbn [flat_map]. rewrite app_length. split; lia.
Qed.
Lemma parts_fit L a b w name attrs pad : Forall (good_part U cs void) L -> part_at L a (Opening name attrs pad) -> length name = w ->
  match b with Some y => exists close pad2, part_at L y (Closing close pad2) /\ length close = w | None => True end -> parts_ok a b w 0 L.
Proof.
  intros G A W B. assert (Q : forall l l1, L = l1 ++ l -> parts_ok a b w (length (soup_text l1)) l).
  2:{ apply (Q L []). reflexivity. }
  induction l as [|x l IH]; intros l1 E; cbn [parts_ok]; [exact I|].
  assert (X : part_at L (length (soup_text l1)) x) by (exists l1, l; auto). set (q := length (soup_text l1)) in *. split.
  2:{ replace (q + length (part_text x)) with (length (soup_text (l1 ++ [x]))); [apply IH; rewrite <- app_assoc; exact E|].
      unfold soup_text. rewrite flat_map_app, app_length. cbn [flat_map]. rewrite app_nil_r. reflexivity. }
  assert (XA : q <= a < q + length (part_text x) -> q = a /\ x = Opening name attrs pad) by (apply part_at_apart with (l := L); auto).
  assert (XB : match b with Some y => q <= y < q + length (part_text x) -> q = y /\ exists close pad2, x = Closing close pad2 /\ length close = w | None => True end).
  { destruct b as [y|]; [|exact I]. destruct B as (close & pad2 & B & BW). intros R. destruct (part_at_apart L q x y _ G X B R) as [-> ->]. split; eauto. }
  destruct x as [h|n at' p|n p]; unfold part_ok, clear.
  - split; [intros R; destruct (XA R); discriminate|]. destruct b as [y|]; [|exact I]. intros R. destruct (XB R) as (_ & c & p2 & R' & _). discriminate.
  - split; [intros R; destruct (XA R) as [-> R']; injection R' as -> _ _; auto|]. destruct b as [y|]; [|exact I]. intros R. destruct (XB R) as (_ & c & p2 & R' & _). discriminate.
  - split; [intros R; destruct (XA R); discriminate|]. destruct b as [y|]; [|exact I]. intros R. destruct (XB R) as (-> & c & p2 & R' & W'). injection R' as -> _. auto.
Qed.
Lemma swapped_id new a b l : Forall (good_part U cs void) l -> forall o, (a < o \/ o + length (soup_text l) <= a) ->
  match b with Some y => y < o \/ o + length (soup_text l) <= y | None => True end -> swapped new a b o l = l.
Proof.
  induction 1 as [|x l Gx Gl IH]; intros o A B; cbn [swapped]; [reflexivity|]. apply part_long in Gx. unfold soup_text in A, B. cbn [flat_map] in A, B. rewrite app_length in A, B.
  rewrite IH; [|unfold soup_text; lia|destruct b; [unfold soup_text; lia|exact I]]. f_equal. destruct x as [h|n at' p|n p]; cbn [swap]; [reflexivity| |].
  - replace (o =? a) with false by lia. reflexivity.
  - unfold is_end. destruct b as [y|]; [|reflexivity]. replace (o =? y) with false by lia. reflexivity.
Qed.
Lemma swapped_good new a b : good_name U new -> ~ is_raw U cs new -> ~ In new void -> forall l o, good_soup U cs void l -> good_soup U cs void (swapped new a b o l).
Proof.
  intros N1 N2 N3 l o [G S]. split.
  - clear S. revert o. induction G as [|x l Gx Gl IH]; intros o; cbn [swapped]; constructor; auto.
    destruct x as [h|n at' p|n p]; cbn [swap good_part] in *; [exact Gx| |]; [destruct (o =? a)|destruct (is_end b o)]; tauto.
  - clear G. revert o. induction l as [|x l IH]; intros o; cbn [swapped unsplit]; [exact I|]. cbn [unsplit] in S. destruct S as [S1 S2]. split; [|apply IH; exact S2].
    destruct l as [|y l]; cbn [swapped]; [exact I|].
    assert (Q : forall q z, part_is_text (swap new a b q z) = part_is_text z) by (intros q [h|n at' p|n p]; reflexivity). rewrite !Q. exact S1.
Qed.
End Parts.

Lemma node_unique U t cs void roots n m : Utf8 t -> parse U t cs void = Ok roots -> In n (doc_nodes roots) -> In m (doc_nodes roots) ->
  (n_start m = n_start n \/ exists y, n_ets m = Some y /\ n_ets n = Some y) -> m = n.
Proof.
  intros HU HP I K G. pose proof (parsed_wf _ _ _ _ _ HU HP) as W.
  destruct (C12_spans _ _ _ _ _ HU HP) as [_ SP]. rewrite Forall_forall in SP.
  assert (AN : forall z, In z (doc_nodes roots) -> all_nodes nested z).
  { intros z Z. destruct W as [_ W]. apply in_flat_map in Z as (r & R & Z).
    rewrite Forall_forall in W. specialize (W r R). apply all_nodes_of_preorder.
    apply all_nodes_preorder in W. rewrite Forall_forall in *. intros y Y. apply W.
    clear - Z Y. revert r Z. refine (node_induction (fun r => In z (preorder r) -> In y (preorder r)) _).
    intros r IH Z. rewrite preorder_eq in Z. destruct Z as [->|Z]; auto.
    rewrite preorder_eq. right. apply in_flat_map in Z as (c & C & Z). apply in_flat_map. exists c.
    split; auto. rewrite Forall_forall in IH. apply IH; auto. }
  assert (IN : forall u v, In u (doc_nodes roots) -> In v (doc_nodes roots) -> In v (flat_map preorder (n_children u)) ->
    ~ (n_start v = n_start u \/ exists y, n_ets v = Some y /\ n_ets u = Some y)).
  { intros u v Iu Iv L [Q|(y & Y1 & Y2)].
    - pose proof (preorder_bounds_strict u v (AN u Iu) L). lia.
    - apply in_flat_map in L as (c & Hc & L).
      assert (ANc : all_nodes nested c) by (pose proof (AN u Iu) as Q; inv Q; rewrite Forall_forall in H0; auto).
      pose proof (preorder_bounds c ANc v L) as PB. pose proof (SP u Iu) as (S1 & S2 & S3). pose proof (SP v Iv) as (V1 & V2 & V3).
      rewrite Y2 in S3. rewrite Y1 in V3. destruct (n_ste u) as [s|]; [|contradiction]. destruct (n_ste v) as [s'|]; [|contradiction].
      destruct S3 as (_ & _ & _ & S6). pose proof (chain_bounds _ _ _ _ S6 Hc). lia. }
  destruct (laminar_nodes roots W n m I K) as [->|[L|[L|L]]]; auto; exfalso.
  - apply (IN m n K I L). destruct G as [G|(y & G1 & G2)]; [left; auto|right; eauto].
  - apply (IN n m I K L G).
  - pose proof (SP n I) as (S1 & S2 & S3). pose proof (SP m K) as (V1 & V2 & V3). destruct G as [G|(y & G1 & G2)]; [lia|].
    rewrite G2 in S3. rewrite G1 in V3. destruct (n_ste n) as [s|]; [|contradiction]. destruct (n_ste m) as [s'|]; [|contradiction]. lia.
Qed.

(** ** C86 *)
(** The edits of a rename, applied, replace the name in the start tag of the element and in the end tag that closes it, and nothing else. *)
Theorem C86_text : forall U cs void d l e left ns n name attrs pad sp x new, textdoc_ok d -> d_text d = soup_text l ->
  good_soup U cs void l -> Forall tags_only l -> denotes U cs [] 0 l e left ns ->
  In n (doc_nodes ns) -> part_at l (n_start n) (Opening name attrs pad) -> spelled l n sp -> even sp ->
  Bd (d_text d) x -> on_spans sp x ->
  exists edits, do_rename d (position_at d x) new ns = Ok (Some edits) /\
    edited d edits = soup_text (swapped new (n_start n) (n_ets n) 0 l).
Proof.
  intros U cs void d l e left ns n name attrs pad sp x new HD T G TO D I PA SP EV BX ON.
  destruct (C85_on_name U cs void d l e left ns n HD T G TO D I) as (sp' & SP' & R). rewrite (C85_unique U cs void l n sp' sp G SP' SP) in *. clear sp' SP'.
  destruct (R x new BX ON) as (_ & R2). destruct (R2 EV) as (_ & _ & R3). clear R R2. eexists. split; [exact R3|]. unfold edited.
  assert (HU : Utf8 (d_text d)) by apply (do_utf8 _ HD).
  destruct G as [G NS]. pose proof (start_named U cs void d l HD G T _ _ _ _ PA) as (_ & EN). destruct (bd_elem U _ HU _ _ EN) as [B1 B2].
  destruct SP as [h P1 P2|name1 attrs1 pad1 P1 P2|name1 attrs1 pad1 close pad2 y P1 P2 P3]; pose proof (part_at_unique U cs void l _ _ _ G PA P1) as Q; [discriminate Q| |]; injection Q as <- <- <-.
  - cbn [ranges map fst snd]. destruct (range_text d _ _ HD B1 B2) as (_ & -> & ->). rewrite P2.
    destruct PA as (l1 & l2 & E & O). rewrite E in G. apply Forall_app in G as [G1 G2]. apply Forall_cons_iff in G2 as [_ G2].
    rewrite replace_one with (a := soup_text l1 ++ bs "<") (x := name) (b := render_attrs attrs ++ pad ++ bs ">" ++ soup_text l2).
    + rewrite E, swapped_app. cbn [swapped swap Nat.add]. rewrite <- O, Nat.eqb_refl.
      rewrite (swapped_id U cs void new (n_start n) None l1 G1 0) by (auto; lia). pose proof (opening_long name attrs pad).
      rewrite (swapped_id U cs void new (n_start n) None l2 G2) by (cbn [part_text]; auto; lia).
      unfold soup_text. rewrite flat_map_app. cbn [flat_map part_text]. unfold start_tag. rewrite <- !app_assoc. reflexivity.
    + rewrite T, E. unfold soup_text. rewrite flat_map_app. cbn [flat_map part_text]. unfold start_tag. rewrite <- !app_assoc. reflexivity.
    + rewrite app_length, O. reflexivity.
    + rewrite app_length, O. reflexivity.
  - cbn [even] in EV. assert (W : length close = length name) by lia.
    pose proof (denotes_ets U cs _ _ _ _ _ _ D TO n y I P2) as LT'.
    pose proof (end_named U cs void d l HD G T _ _ _ P3) as (_ & EN2). destruct (bd_elem U _ HU _ _ EN2) as [B3 B4].
    cbn [ranges map fst snd]. destruct (range_text d _ _ HD B1 B2) as (_ & -> & ->). destruct (range_text d _ _ HD B3 B4) as (_ & -> & ->). rewrite P2.
    destruct (part_at_split U cs void l _ _ _ _ G PA P3) as (l1 & l2 & l3 & E & O & O2); [lia|]. cbn [part_text] in O2.
    rewrite E in G. apply Forall_app in G as [G1 G2]. apply Forall_cons_iff in G2 as [_ G2]. apply Forall_app in G2 as [G2 G3]. apply Forall_cons_iff in G3 as [_ G3].
    rewrite replace_two with (a := soup_text l1 ++ bs "<") (x := name) (b := render_attrs attrs ++ pad ++ bs ">" ++ soup_text l2 ++ bs "</") (y := close) (c := pad2 ++ bs ">" ++ soup_text l3).
    + rewrite E, swapped_app. cbn [swapped swap Nat.add part_text]. rewrite <- O, Nat.eqb_refl, swapped_app. cbn [swapped swap is_end part_text].
      pose proof (opening_long name attrs pad). pose proof (closing_long close pad2).
      replace (n_start n + length (start_tag name attrs pad (bs ">")) + length (soup_text l2)) with y by lia. rewrite Nat.eqb_refl.
      rewrite (swapped_id U cs void new (n_start n) (Some y) l1 G1 0) by lia.
      rewrite (swapped_id U cs void new (n_start n) (Some y) l2 G2) by lia.
      rewrite (swapped_id U cs void new (n_start n) (Some y) l3 G3) by lia.
      unfold soup_text. rewrite flat_map_app. cbn [flat_map part_text]. rewrite flat_map_app. cbn [flat_map part_text]. unfold start_tag, end_tag. rewrite <- !app_assoc. reflexivity.
    + rewrite T, E. unfold soup_text. rewrite flat_map_app. cbn [flat_map part_text]. rewrite flat_map_app. cbn [flat_map part_text]. unfold start_tag, end_tag. rewrite <- !app_assoc. reflexivity.
    + rewrite app_length, O. reflexivity.
    + rewrite app_length, O. reflexivity.
    + rewrite !app_length. rewrite O2, O. rewrite start_length. change (length (bs "<")) with 1. change (length (bs "</")) with 2. change (length (bs ">")) with 1. lia.
    + reflexivity.
Qed.
Print Assumptions C86_text.
(** With a name that no tag has and that is neither void nor raw, the tree stays as it was but for this name. *)
Theorem C86_structure : forall U cs void d l e left ns n name attrs pad sp x new, textdoc_ok d -> d_text d = soup_text l ->
  good_soup U cs void l -> Forall tags_only l -> denotes U cs [] 0 l e left ns ->
  In n (doc_nodes ns) -> part_at l (n_start n) (Opening name attrs pad) -> spelled l n sp -> even sp ->
  Bd (d_text d) x -> on_spans sp x ->
  good_name U new -> ~ is_raw U cs new -> ~ In new void -> Forall (unused U cs new) l ->
  exists edits ns', do_rename d (position_at d x) new ns = Ok (Some edits) /\
    parse U (edited d edits) cs void = Ok ns' /\ Forall2 (same_but new (n_start n) (n_ets n) (length name)) ns ns'.
Proof.
  intros U cs void d l e left ns n name attrs pad sp x new HD T G TO D I PA SP EV BX ON N1 N2 N3 UN.
  destruct (C86_text U cs void d l e left ns n name attrs pad sp x new HD T G TO D I PA SP EV BX ON) as (edits & R1 & R2).
  assert (HU : Utf8 (d_text d)) by apply (do_utf8 _ HD).
  assert (P : parse U (d_text d) cs void = Ok ns) by (rewrite T; eapply C82_tree; eauto).
  destruct (soup_renamed U cs void new (n_start n) (n_ets n) (length name) _ _ _ _ _ _ D (proj1 G) TO UN) with (o' := 0) (around' := @nil str) as (e' & left' & ns' & S1 & _ & _ & S4).
  - apply (parts_fit U cs void l _ _ _ name attrs pad (proj1 G) PA eq_refl). destruct (n_ets n) as [y|] eqn:Y; [|exact Logic.I].
    destruct SP as [h P1 P2|name1 attrs1 pad1 P1 P2|name1 attrs1 pad1 close pad2 z P1 P2 P3]; pose proof (part_at_unique U cs void l _ _ _ (proj1 G) PA P1) as Q; [discriminate Q| |]; injection Q as <- <- <-.
    + rewrite Y in P2. discriminate.
    + rewrite Y in P2. apply Some_inj in P2. subst z. exists close, pad2. split; auto. cbn [even] in EV. lia.
  - split; [|split].
    + intros m M Q. rewrite (node_unique U (d_text d) cs void ns n m HU P I M (or_introl Q)). reflexivity.
    + intros m y M Y1 Y2. rewrite (node_unique U (d_text d) cs void ns n m HU P I M); [reflexivity|right; eauto].
    + intros y Y _. exists n. auto.
  - unfold moved, behind. destruct (n_ets n); cbn; lia.
  - constructor.
  - exists edits, ns'. split; [exact R1|]. split; [|exact S4]. rewrite R2. eapply C82_tree; [|exact S1]. apply swapped_good; auto.
Qed.
Print Assumptions C86_structure.

(** ** Concrete cases *)
(** In [<ul><li>a<li>b</UL></p><b><br>] the list is renamed. *)
Example C86_mixed : let d := utf16_doc (soup_text mixed) in let n := hd (node_new 0 0) mixed_nodes in
  In n (doc_nodes mixed_nodes) /\ part_at mixed (n_start n) (Opening (bs "ul") [] []) /\ spelled mixed n [(1, 3); (16, 18)] /\ even [(1, 3); (16, 18)] /\
  on_spans [(1, 3); (16, 18)] 2 /\ Forall (unused demo_unicode false (bs "menu")) mixed /\
  soup_text (swapped (bs "menu") (n_start n) (n_ets n) 0 mixed) = bs "<menu><li>a<li>b</menu></p><b><br>" /\
  exists edits, do_rename d (position_at d 2) (bs "menu") mixed_nodes = Ok (Some edits) /\ edited d edits = bs "<menu><li>a<li>b</menu></p><b><br>".
Proof.
  split; [left; reflexivity|]. split; [exists [], (tl mixed); split; reflexivity|]. split; [apply C85_mixed|]. split; [reflexivity|].
  split; [left; unfold on_span; cbn; lia|]. split; [repeat constructor; intros H; discriminate H|]. split; [vm_compute; reflexivity|].
  eexists. split; vm_compute; reflexivity.
Qed.
(** A name that is in use may take the end tag of another element: [b] in [<i><b></i>] renamed to [i]. *)
Theorem C86_used_refuted : exists d roots edits roots', parse demo_unicode (d_text d) false html5_void = Ok roots /\
  do_rename d (mkPos 0 4) (bs "i") roots = Ok (Some edits) /\ parse demo_unicode (edited d edits) false html5_void = Ok roots' /\
  map (fun n => (n_tag n, n_closed n, map n_closed (n_children n))) roots = [(Some (bs "i"), true, [false])] /\
  map (fun n => (n_tag n, n_closed n, map n_closed (n_children n))) roots' = [(Some (bs "i"), false, [true])].
Proof.
  exists (utf16_doc (bs "<i><b></i>")). eexists. eexists. eexists. split; [vm_compute; reflexivity|]. split; [vm_compute; reflexivity|]. split; [vm_compute; reflexivity|].
  split; vm_compute; reflexivity.
Qed.
