(** * C65: what stands in front of a place does not change how the rest is read *)
From Verif Require Import Base BaseFacts Stream Scanner ScannerFacts ScanStep ScanPanic ScanProps ScanResume
  Tree Parser ParseSpec ParseInv ParseOrder PropParse Render RenderFacts PropRender ScanShift ParseShift FormatFacts.
From Coq Require Import ZifyBool ZifyNat ZifyN.

Lemma loop_more U t cs void n : forall m sc p r, parse_loop U t cs void n sc p = r -> r <> OutOfFuel -> n <= m ->
  parse_loop U t cs void m sc p = r.
Proof.
  induction n as [|n IH]; intros m sc p r H NE L; [cbn in H; congruence|].
  destruct m as [|m]; [lia|]. cbn [parse_loop] in *. destruct (scan U t true cs sc) as [y| |]; cbn [bind] in *; auto.
  destruct (token_eqb (tok y) EOS); auto. destruct (pstep U t cs void y p); cbn [bind] in *; auto. apply IH; auto. lia.
Qed.

(** The prefix reaches the '<' or the end the rest begins with. *)
Lemma parse_after U cs void l s : good_doc U cs void l -> Utf8 s -> s = [] \/ (exists s', s = 60%N :: s') ->
  parse U (render_all l ++ s) cs void =
  rmap (fun r => nodes_all 0 l ++ map (shift (length (render_all l))) r) (parse U s cs void).
Proof.
  intros [G NS] Us HS. set (a := render_all l). set (t := a ++ s).
  assert (Ua : Utf8 a).
  { unfold a. clear NS. induction G; [apply u_nil|]. cbn [render_all flat_map]. apply u_app; auto. eapply render_utf8; eauto. }
  assert (HU : Utf8 t) by (apply u_app; auto).
  set (sc0 := scanner_new 0 WithinContent). set (p0 := mkP (node_new 0 (length t)) [] None None None).
  assert (A : at_ t (pos sc0) (render_all l ++ s)) by (split; [reflexivity|apply Bd_0; auto]).
  assert (IR : Forall (item_runs U t cs void) l).
  { eapply Forall_impl; [|exact G]. intros h Gh. apply item_ok; auto. }
  destruct (list_from_items U t cs void HU l IR sc0 p0 s G NS eq_refl A HS)
    as (s1 & p1 & R1 & S1 & P1 & C1 & Q1 & _).
  apply run_loop in R1 as (_ & k & K & E). cbn [pos sc0 scanner_new] in K, P1. fold a in P1.
  change (pos sc0) with 0 in C1. set (fr := nodes_all 0 l) in *. clearbody fr.
  unfold parse at 1. fold sc0 p0.
  assert (F : exists f, scan_fuel t = k + (scan_fuel s + f)).
  { exists (scan_fuel t - k - scan_fuel s). unfold scan_fuel, t. rewrite app_length. lia. }
  destruct F as (f & ->). rewrite E.
  set (q0 := mkP (node_new 0 (length s)) [] None None None).
  destruct (loop_sim U t cs void HU (scan_fuel s + f) s1 (sh a sc0) p1 (shp a fr q0)) as (q & SIM).
  { split; [exact S1|]. split; [cbn [sh pos sc0 scanner_new]; lia|]. rewrite S1. discriminate. }
  { split; [|split; [rewrite Q1; reflexivity|rewrite S1; split; intros [|]; discriminate]].
    rewrite C1. unfold shp, q0, p0, plus, root, place, node_new, set_children. cbn. unfold root; cbn. rewrite app_nil_r. unfold t. rewrite app_length. reflexivity. }
  unfold t in SIM at 2. rewrite loop_sh in SIM by auto. fold t in SIM.
  assert (M : parse_loop U s cs void (scan_fuel s + f) sc0 q0 = parse_loop U s cs void (scan_fuel s) sc0 q0).
  { eapply loop_more; [reflexivity| |lia]. destruct (C11_parse_total U s cs void Us) as [(r & x & _ & H)|(r & _ & H)];
      unfold parse in H; fold sc0 q0 in H; destruct (parse_loop U s cs void (scan_fuel s) sc0 q0); cbn in H; congruence. }
  rewrite M in SIM. unfold parse. fold sc0 q0. unfold rmap in *.
  destruct (parse_loop U s cs void (scan_fuel s) sc0 q0) as [r| |], (parse_loop U t cs void (scan_fuel s + f) s1 p1) as [r'| |];
    cbn [bind psim_res] in *; try tauto; try congruence.
  destruct SIM as (X1 & X2 & _). rewrite X1, X2. unfold shp. cbn [cur parents]. unfold t. rewrite close_all_sh. reflexivity.
Qed.

(** ** Text at the seam *)
Fixpoint with_text (l : list html) (w : str) : list html :=
  match l with
  | [] => [HText w]
  | h :: [] => match h with HText x => [HText (x ++ w)] | _ => [h; HText w] end
  | h :: r => h :: with_text r w
  end.
Lemma with_text_head h l w : (forall x, h <> HText x) -> exists r, with_text (h :: l) w = h :: r.
Proof. intros N. destruct l; [destruct h; cbn; eauto; destruct (N s); auto|cbn [with_text]; destruct h; eauto]. Qed.
Lemma with_text_good U cs void l w : good_doc U cs void l -> good_text w -> good_doc U cs void (with_text l w).
Proof.
  intros [G NS] W. assert (GW : good U cs void (HText w)) by (constructor; auto).
  unfold good_doc. induction G as [|h l Gh Gl IH]; [cbn; auto|].
  destruct l as [|h2 r].
  - destruct h; cbn; auto; split; auto. constructor; auto. constructor. inversion Gh as [x GX| | | | | | |]; subst.
    destruct GX as (X1 & X2 & X3), W as (W1 & W2 & W3). repeat split; auto using u_app.
    + intros Q. apply app_eq_nil in Q. tauto.
    + rewrite in_app_iff. tauto.
  - assert (NS2 : no_split (h2 :: r)) by (destruct h; auto; destruct h2; auto; destruct NS).
    destruct (IH NS2) as (I1 & I2). change (with_text (h :: h2 :: r) w) with (h :: with_text (h2 :: r) w).
    split; [constructor; auto|]. destruct h; auto.
    destruct (with_text_head h2 r w) as (r' & E); [intros x ->; destruct NS|]. rewrite E in *.
    destruct h2; auto.
Qed.
Lemma with_text_render l w : render_all (with_text l w) = render_all l ++ w.
Proof.
  induction l as [|h l IH]; [cbn; apply app_nil_r|]. destruct l as [|h2 r].
  - destruct h; cbn [with_text render_all flat_map]; cbn [render]; rewrite ?app_nil_r, <- ?app_assoc; reflexivity.
  - change (with_text (h :: h2 :: r) w) with (h :: with_text (h2 :: r) w).
    cbn [render_all flat_map]. change (flat_map render ?x) with (render_all x). rewrite IH.
    cbn [render_all flat_map]. rewrite <- !app_assoc. reflexivity.
Qed.
Lemma with_text_nodes l w : forall o, nodes_all o (with_text l w) = nodes_all o l.
Proof.
  induction l as [|h l IH]; intros o; [reflexivity|]. destruct l as [|h2 r].
  - unfold nodes_all. destruct h; cbn [with_text nodes_with]; cbn [nodes_from]; rewrite ?app_nil_r; reflexivity.
  - change (with_text (h :: h2 :: r) w) with (h :: with_text (h2 :: r) w).
    unfold nodes_all in *. cbn [nodes_with]. rewrite IH. reflexivity.
Qed.

Fixpoint to_lt (s : str) : str * str :=
  match s with
  | [] => ([], [])
  | b :: r => if N.eqb b 60 then ([], s) else (b :: fst (to_lt r), snd (to_lt r))
  end.
Lemma to_lt_spec s : s = fst (to_lt s) ++ snd (to_lt s) /\ ~ In 60%N (fst (to_lt s)) /\
  (snd (to_lt s) = [] \/ exists r, snd (to_lt s) = 60%N :: r).
Proof.
  induction s as [|b r (I1 & I2 & I3)]; cbn [to_lt]; [cbn; auto|].
  destruct (N.eqb_spec b 60); [subst; cbn [fst snd app In]; split; [reflexivity|split; [tauto|eauto]]|].
  cbn [fst snd app In]. split; [f_equal; auto|]. split; [|auto]. intros [|]; [congruence|auto].
Qed.

Lemma shift_shift a b n : shift a (shift b n) = shift (a + b) n.
Proof.
  revert n. fix IH 1. intros [tag st en ch cl se es at_]. cbn. f_equal; try lia.
  - induction ch as [|c r IHr]; [reflexivity|]. cbn. rewrite IH, IHr. reflexivity.
  - destruct se; cbn; f_equal; lia.
  - destruct es; cbn; f_equal; lia.
  - rewrite map_map. apply map_ext. intros [x [v o]]. unfold shift_attr. cbn. do 2 f_equal. lia.
Qed.

(** ** C65 *)
(** A well-formed document [l] in front of any text [s] at all: the tree is the
    tree of [l] followed by the tree of [s] alone, moved by the length of [l]; and
    when reading [s] alone is beyond the code (see C11), so is reading the whole. *)
Theorem C65_rest : forall U cs void l s, good_doc U cs void l -> Utf8 s ->
  parse U (render_all l ++ s) cs void =
  match parse U s cs void with
  | Ok roots => Ok (nodes_all 0 l ++ map (shift (length (render_all l))) roots)
  | Panic r => Panic r
  | OutOfFuel => OutOfFuel
  end.
Proof.
  intros U cs void l s G Us. destruct (to_lt_spec s) as (E & NL & HS).
  destruct (to_lt s) as [w r]. cbn [fst snd] in *. subst s.
  assert (UW : Utf8 w /\ Utf8 r).
  { destruct HS as [-> |(r' & ->)]; [rewrite app_nil_r in Us; split; auto using u_nil|].
    destruct (utf8_split_at w 60 r' eq_refl Us). split; auto. change (60%N :: r') with ([60%N] ++ r'). apply u_app; auto.
    apply u_one. reflexivity. }
  destruct UW as [Uw Ur]. destruct w as [|b w].
  { cbn [app]. rewrite parse_after by auto. unfold rmap. destruct (parse U r cs void); reflexivity. }
  set (w' := b :: w) in *. assert (GT : good_text w') by (repeat split; auto; discriminate).
  assert (GW : good_doc U cs void [HText w']) by (split; [constructor; auto; constructor; auto|exact I]).
  pose proof (parse_after U cs void _ r GW Ur HS) as P1.
  pose proof (parse_after U cs void _ r (with_text_good _ _ _ _ _ G GT) Ur HS) as P2.
  rewrite with_text_render, with_text_nodes in P2. cbn [render_all flat_map] in P1. cbn [render] in P1. rewrite app_nil_r in P1.
  rewrite app_assoc, P1, P2. unfold rmap. destruct (parse U r cs void); cbn [bind]; try reflexivity.
  do 2 f_equal. change (nodes_all 0 [HText w']) with (@nil node). cbn [app]. rewrite map_map. apply map_ext. intros n.
  rewrite shift_shift, app_length. reflexivity.
Qed.
Print Assumptions C65_rest.

(** Two well-formed beginnings: the same tree for the rest, but for the places. *)
Theorem C65_same_rest : forall U cs void l1 l2 s r1 r2, good_doc U cs void l1 -> good_doc U cs void l2 -> Utf8 s ->
  parse U (render_all l1 ++ s) cs void = Ok r1 -> parse U (render_all l2 ++ s) cs void = Ok r2 ->
  exists roots,
    r1 = nodes_all 0 l1 ++ map (shift (length (render_all l1))) roots /\
    r2 = nodes_all 0 l2 ++ map (shift (length (render_all l2))) roots.
Proof.
  intros U cs void l1 l2 s r1 r2 G1 G2 Us. rewrite !C65_rest by auto.
  destruct (parse U s cs void) as [r| |]; try discriminate. intros A B. apply Ok_inj in A, B. eauto.
Qed.
Print Assumptions C65_same_rest.

(** An unfinished beginning does reach into the rest. *)
Theorem C65_unfinished_refuted : exists a s ra rs r,
  parse demo_unicode a false html5_void = Ok ra /\ parse demo_unicode s false html5_void = Ok rs /\
  parse demo_unicode (a ++ s) false html5_void = Ok r /\
  r <> ra ++ map (shift (length a)) rs.
Proof.
  exists (bs "<!-- "), (bs "<p>x</p>"), [], [mkNode (Some (bs "p")) 0 8 [] true (Some 3) (Some 4) []], [].
  split; [vm_compute; reflexivity|]. split; [vm_compute; reflexivity|]. split; [vm_compute; reflexivity|]. discriminate.
Qed.
Print Assumptions C65_unfinished_refuted.

(** The document of C21 in front of a broken rest that begins with text. *)
Definition broken : str := bs "tail <p a='<b>c'>d</i>e<br=x <q".
Example C65_demo : good_doc demo_unicode false html5_void demo /\ Utf8 broken /\
  exists roots, parse demo_unicode broken false html5_void = Ok roots /\ length (doc_nodes roots) = 3 /\
    parse demo_unicode (render_all demo ++ broken) false html5_void =
    Ok (nodes_all 0 demo ++ map (shift 167) roots).
Proof.
  assert (U : Utf8 broken) by (apply ascii_utf8; reflexivity).
  split; [apply demo_good|]. split; [exact U|].
  destruct (parse demo_unicode broken false html5_void) as [r| |] eqn:E; [|vm_compute in E; discriminate|vm_compute in E; discriminate].
  exists r. split; [reflexivity|]. split; [vm_compute in E; apply Ok_inj in E; subst r; reflexivity|].
  rewrite C65_rest by (auto using demo_good). rewrite E. reflexivity.
Qed.
