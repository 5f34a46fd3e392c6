(** * C87: what is proposed at the end of an unfinished document *)
From Verif Require Import SelectionRange PropTags PropSelection Base BaseFacts Stream Scanner ScannerFacts ScanStep ScanProps ScanShape ScanPanic Tree
  Parser ParseSpec ParseInv ParseOrder PropParse TreeFacts PropTree ParseEnd PropEnd TextDoc PropDoc
  SelAttr TokenLoop NodeScan DataManager PropData BuiltinData Entities Hover Completion PropTagComplete PropHover PropComplete PropEdits PropAnswers PropProposals
  Render RenderFacts PropRender PropRename ScanComplete Lexing PropTokens PropTagDoc PropHoverTree PropTyped PropSoup PropSoupTyping.
From Verif Require TokenRun.
From Coq Require Import ZifyBool ZifyNat ZifyN.

(** ** Specification *)
(** The innermost element left open: its start tag is the part behind [A], and what follows it, [B],
    leaves nothing open. *)
Definition innermost_left (U : unicode) (cs : bool) (l : list part) (left0 : list str) (x : str) (A B : list part) : Prop :=
  exists attrs pad kids, l = A ++ Opening x attrs pad :: B /\
    denotes U cs (x :: rev left0) (length (soup_text (A ++ [Opening x attrs pad]))) B (length (soup_text l)) [] kids.

(** ** The tree when something more is at the end *)
(** The nodes [new] come last in the innermost element left open; the elements left open end at [z]. *)
Fixpoint hang (z : nat) (new : list node) (k : nat) (ns : list node) : list node :=
  match k with
  | 0 => ns ++ new
  | S k' => match ns with
            | [] => []
            | n0 :: _ => let n := last ns n0 in removelast ns ++ [set_end z (set_children (hang z new k' (n_children n)) n)]
            end
  end.
Lemma hang_last z new k A n : hang z new (S k) (A ++ [n]) = A ++ [set_end z (set_children (hang z new k (n_children n)) n)].
Proof.
  cbn [hang]. destruct (A ++ [n]) as [|n0 r] eqn:E; [destruct A; discriminate|]. rewrite <- E. cbn zeta. rewrite removelast_last, last_last. reflexivity.
Qed.
Lemma hang_app z new k A ns : (k = 0 \/ ns <> []) -> hang z new k (A ++ ns) = A ++ hang z new k ns.
Proof.
  destruct k as [|k]; [intros _; cbn [hang]; rewrite app_assoc; reflexivity|]. intros [N|N]; [discriminate|].
  destruct (exists_last N) as (B & n & ->). rewrite app_assoc, !hang_last, app_assoc. reflexivity.
Qed.
Lemma hang_stretch z k : forall ns, hang z [] k ns = stretch z k ns.
Proof.
  induction k as [|k IH]; intros ns; cbn [hang stretch]; [apply app_nil_r|]. destruct ns; [reflexivity|]. cbn zeta. rewrite IH. reflexivity.
Qed.
Lemma collapse_hang e z new k : forall c ps c' ps', collapse e k c ps = Some (c', ps') ->
  collapse z k (plus c new) ps = Some (set_children (hang z new k (n_children c')) c', ps').
Proof.
  induction k as [|k IH]; intros c ps c' ps' H.
  - cbn [collapse hang] in *. apply Some_inj, pair_equal_spec in H as [<- <-]. reflexivity.
  - apply collapse_out in H as (c0 & par & H & ->). apply IH in H. apply collapse_last in H. rewrite H. do 2 f_equal.
    assert (EC : forall v n, n_children (set_children v n) = v) by reflexivity. unfold add_child. rewrite EC, hang_last. destruct c0; reflexivity.
Qed.
Section Hung.
Variables (U : unicode) (cs : bool) (void : list str).
Notation denotes := (denotes U cs).
(** A node of this tree is new, or lies in front, or is one of the elements left open. *)
Lemma hung around o l e left ns : denotes around o l e left ns -> Forall (good_part U cs void) l -> forall z new, e < z ->
  let ns' := hang z new (length left) ns in
  incl new (flat_map preorder ns') /\
  (forall m, In m (flat_map preorder ns') -> In m (flat_map preorder new) \/ o <= n_start m) /\
  (left = [] -> forall m, In m (flat_map preorder ns') -> In m (flat_map preorder new) \/ n_end m <= e) /\
  (forall left0 x, left = left0 ++ [x] -> exists A attrs pad B kids y,
     l = A ++ Opening x attrs pad :: B /\
     denotes (x :: rev left0 ++ around) (o + length (soup_text (A ++ [Opening x attrs pad]))) B e [] kids /\
     In y (flat_map preorder ns') /\ n_tag y = Some x /\ n_start y = o + length (soup_text A) /\ n_end y = z /\ n_closed y = false /\ n_ets y = None /\
     n_children y = kids ++ new /\
     forall m, In m (flat_map preorder ns') -> In m (flat_map preorder new) \/ n_end m <= e \/ n_start m <= n_start y).
Proof.
  assert (SELF : forall new, incl new (flat_map preorder new)) by (intros new m I; apply in_flat_map; exists m; split; [exact I|apply preorder_in; auto]).
  induction 1 as [around o|around o h l e left ns D IH|around o name pad l e left ns N D IH|
    around o name attrs pad body b open kids close pad2 l e left ns a z' D1 IH1 NO SN D2 IH2|around o name attrs pad body e open kids a D IH]; intros G z new L; cbn zeta.
  - cbn [length hang app]. split; [apply SELF|]. split; [auto|]. split; [auto|]. intros left0 x E. destruct left0; discriminate.
  - apply Forall_cons_iff in G as [Gh Gl]. destruct (IH Gl z new L) as (I0 & I1 & I2 & I3). pose proof (denotes_end _ _ _ _ _ _ _ _ D) as DE.
    rewrite hang_app by (destruct left; [auto|right; eapply denotes_some; [exact D|discriminate]]).
    assert (Q : forall m, In m (flat_map preorder (nodes_from o h)) -> o <= n_start m /\ n_end m <= e).
    { intros m I. apply (piece_bounds U cs void) in I as (A & B & C); auto. split; [auto|lia]. }
    rewrite flat_map_app. split; [intros m I; apply in_app_iff; auto|]. split; [|split].
    + intros m I. apply in_app_iff in I as [I|I]; [right; apply Q; auto|apply I1 in I as [I|I]; auto; right; lia].
    + intros E m I. apply in_app_iff in I as [I|I]; [right; apply Q; auto|auto].
    + intros left0 x E. destruct (I3 left0 x E) as (A & at0 & pd & B & ks & y & -> & DB & Y1 & Y2 & Y3 & Y4 & Y5 & Y6 & Y7 & Y8).
      exists (Piece h :: A), at0, pd, B, ks, y. split; [reflexivity|].
      replace (o + length (soup_text (Piece h :: A))) with (o + length (render h) + length (soup_text A)) by (unfold soup_text; cbn [flat_map part_text]; rewrite app_length; lia).
      replace (o + length (soup_text ((Piece h :: A) ++ [Opening x at0 pd]))) with (o + length (render h) + length (soup_text (A ++ [Opening x at0 pd]))) by (unfold soup_text; cbn [app flat_map part_text]; rewrite app_length; lia).
      split; [exact DB|]. split; [apply in_app_iff; auto|]. repeat (split; [assumption|]).
      intros m I. apply in_app_iff in I as [I|I]; [right; left; apply Q; auto|auto].
  - apply Forall_cons_iff in G as [Gh Gl]. destruct (IH Gl z new L) as (I0 & I1 & I2 & I3). split; [auto|]. split; [intros m I; apply I1 in I as [I|I]; auto; right; lia|]. split; [auto|].
    intros left0 x E. destruct (I3 left0 x E) as (A & at0 & pd & B & ks & y & -> & DB & Y1 & Y2 & Y3 & Y4 & Y5 & Y6 & Y7 & Y8).
    exists (Closing name pad :: A), at0, pd, B, ks, y. split; [reflexivity|].
    replace (o + length (soup_text (Closing name pad :: A))) with (o + length (end_tag name pad) + length (soup_text A)) by (unfold soup_text; cbn [flat_map part_text]; rewrite app_length; lia).
    replace (o + length (soup_text ((Closing name pad :: A) ++ [Opening x at0 pd]))) with (o + length (end_tag name pad) + length (soup_text (A ++ [Opening x at0 pd]))) by (unfold soup_text; cbn [app flat_map part_text]; rewrite app_length; lia).
    split; [exact DB|]. auto 10.
  - apply Forall_cons_iff in G as [_ G]. apply Forall_app in G as [Gb G]. apply Forall_cons_iff in G as [_ Gl]. destruct (IH2 Gl z new L) as (I0 & I1 & I2 & I3).
    pose proof (denotes_end _ _ _ _ _ _ _ _ D2) as DE2. pose proof (denotes_end _ _ _ _ _ _ _ _ D1) as DE1. pose proof (end_tag_long close pad2) as EL.
    set (n := mkNode (Some name) o z' kids true (Some a) (Some b) (attrs_from (o + 1 + length name) attrs)).
    change (n :: ns) with ([n] ++ ns). rewrite hang_app by (destruct left; [auto|right; eapply denotes_some; [exact D2|discriminate]]).
    assert (Q : forall m, In m (flat_map preorder [n]) -> o <= n_start m /\ n_end m <= e).
    { intros m I. cbn [flat_map] in I. rewrite app_nil_r in I. apply preorder_in in I as [-> |I].
      - cbn [n n_start n_end]. split; [auto|lia].
      - cbn [n n_children] in I. apply (denotes_bounds U cs void _ _ _ _ _ _ D1 Gb) in I. lia. }
    rewrite flat_map_app. split; [intros m I; apply in_app_iff; auto|]. split; [|split].
    + intros m I. apply in_app_iff in I as [I|I]; [right; apply Q; auto|apply I1 in I as [I|I]; auto; right; lia].
    + intros E m I. apply in_app_iff in I as [I|I]; [right; apply Q; auto|auto].
    + intros left0 x E. destruct (I3 left0 x E) as (A & at0 & pd & B & ks & y & -> & DB & Y1 & Y2 & Y3 & Y4 & Y5 & Y6 & Y7 & Y8).
      assert (LZ : forall C, o + length (soup_text ((Opening name attrs pad :: body ++ Closing close pad2 :: A) ++ C)) = z' + length (soup_text (A ++ C))).
      { intros C. unfold z'. rewrite DE1. unfold a, soup_text. cbn [app flat_map part_text]. rewrite <- app_assoc. cbn [app]. rewrite !flat_map_app. cbn [flat_map part_text]. rewrite !flat_map_app, !app_length. lia. }
      exists (Opening name attrs pad :: body ++ Closing close pad2 :: A), at0, pd, B, ks, y. split; [cbn [app]; rewrite <- app_assoc; reflexivity|].
      rewrite LZ. split; [exact DB|]. specialize (LZ []). rewrite !app_nil_r in LZ. rewrite LZ. split; [apply in_app_iff; auto|]. repeat (split; [assumption|]).
      intros m I. apply in_app_iff in I as [I|I]; [right; left; apply Q; auto|auto].
  - apply Forall_cons_iff in G as [_ G]. destruct (IH G z new L) as (I0 & I1 & I2 & I3). pose proof (denotes_end _ _ _ _ _ _ _ _ D) as DE.
    cbn [length]. match goal with |- context [hang z new (S _) [?n0]] => set (n := n0) end. rewrite (hang_last z new (length open) [] n : hang z new (S (length open)) [n] = _). cbn [app].
    set (n' := set_end z (set_children (hang z new (length open) (n_children n)) n)).
    assert (C : n_children n' = hang z new (length open) kids) by reflexivity.
    assert (SP : forall m, In m (flat_map preorder [n']) <-> m = n' \/ In m (flat_map preorder (hang z new (length open) kids))).
    { intros m. cbn [flat_map]. rewrite app_nil_r, preorder_in, C. tauto. }
    assert (SN : n_start n' = o) by reflexivity.
    split; [intros m I; apply SP; auto|]. split; [|split].
    + intros m I. apply SP in I as [-> |I]; [right; lia|]. apply I1 in I as [I|I]; auto. right; lia.
    + discriminate.
    + intros left0 x E. destruct left0 as [|y0 left0]; cbn [app] in E.
      * injection E as <- ->. exists [], attrs, pad, body, kids, n'. split; [reflexivity|]. split.
        { cbn [rev app soup_text flat_map part_text]. rewrite app_nil_r. exact D. }
        split; [apply SP; auto|]. split; [reflexivity|]. split; [cbn; lia|]. do 4 (split; [reflexivity|]).
        intros m I. apply SP in I as [-> |I]; [right; right; lia|]. apply (I2 eq_refl) in I as [I|I]; auto.
      * injection E as <- E. destruct (I3 left0 x E) as (A & at0 & pd & B & ks & y & -> & DB & Y1 & Y2 & Y3 & Y4 & Y5 & Y6 & Y7 & Y8).
        assert (LZ : forall C, o + length (soup_text ((Opening name attrs pad :: A) ++ C)) = a + length (soup_text (A ++ C))) by (intros C0; unfold a, soup_text; cbn [app flat_map part_text]; rewrite app_length; lia).
        exists (Opening name attrs pad :: A), at0, pd, B, ks, y. split; [reflexivity|]. rewrite LZ. cbn [rev]. rewrite <- app_assoc. split; [exact DB|].
        specialize (LZ []). rewrite !app_nil_r in LZ. rewrite LZ. split; [apply SP; auto|]. repeat (split; [assumption|]).
        intros m I. apply SP in I as [-> |I]; [|auto]. right. right. pose proof (denotes_end _ _ _ _ _ _ _ _ DB). lia.
Qed.
(** When nothing is left open, no element reaches the end. *)
Lemma roots_closed around o l e left ns : denotes around o l e left ns -> left = [] -> Forall (good_part U cs void) l ->
  forall r, In r ns -> n_closed r = true /\ n_end r <= e /\ (forall b, n_ets r = Some b -> b < n_end r) /\ (n_ets r = None -> n_children r = []).
Proof.
  induction 1 as [around o|around o h l e left ns D IH|around o name pad l e left ns N D IH|
    around o name attrs pad body b open kids close pad2 l e left ns a z' D1 IH1 NO SN D2 IH2|around o name attrs pad body e open kids a D IH]; intros E G r I.
  - destruct I.
  - apply Forall_cons_iff in G as [Gh Gl]. apply in_app_iff in I as [I|I]; [|auto]. pose proof (denotes_end _ _ _ _ _ _ _ _ D) as DE.
    destruct (piece_bounds U cs void h o r Gh) as (_ & B & C); [apply in_flat_map; exists r; split; [auto|apply preorder_in; auto]|]. split; [exact C|]. split; [lia|].
    destruct h; cbn [nodes_from] in I; try contradiction; destruct I as [<-|[]]; cbn [n_ets n_end n_children]; (split; [|first [discriminate|reflexivity]]);
      try discriminate; intros b0 Q; apply Some_inj in Q; subst b0; match goal with |- context [end_tag ?x ?y] => pose proof (end_tag_long x y) end; lia.
  - apply Forall_cons_iff in G as [_ Gl]. auto.
  - apply Forall_cons_iff in G as [_ G]. apply Forall_app in G as [Gb G]. apply Forall_cons_iff in G as [_ Gl]. destruct I as [<-|I]; [|auto].
    pose proof (denotes_end _ _ _ _ _ _ _ _ D2) as DE. cbn [n_closed n_end n_ets n_children]. pose proof (end_tag_long close pad2) as EL.
    split; [reflexivity|]. split; [lia|]. split; [intros b0 Q; apply Some_inj in Q; subst b0; lia|discriminate].
  - discriminate.
Qed.
End Hung.

(** ** The document with a '<' at its end *)
Section Bracket.
Variables (U : unicode) (cs : bool) (void : list str).
Variables (l : list part) (e : nat) (left : list str) (ns : list node).
Hypothesis HG : good_soup U cs void l.
Hypothesis HD : denotes U cs [] 0 l e left ns.
Let t := soup_text l ++ bs "<".
Let new := mkNode None e (e + 1) [] false None None [].
Lemma bracket_utf8 : Utf8 t.
Proof. apply u_app; [eapply soup_utf8; apply HG|apply ascii_utf8; reflexivity]. Qed.
Lemma bracket_len : e = length (soup_text l) /\ length t = e + 1.
Proof. pose proof (denotes_end _ _ _ _ _ _ _ _ HD) as E. unfold t. rewrite app_length. change (length (bs "<")) with 1. split; lia. Qed.
Lemma bracket_parse : parse U t cs void = Ok (hang (e + 1) [new] (length left) ns).
Proof.
  pose proof bracket_utf8 as HU. destruct bracket_len as [LE LT]. destruct HG as [G NS].
  set (sc0 := scanner_new 0 WithinContent). set (p0 := mkP (node_new 0 (length t)) [] None None None).
  assert (A : at_ t 0 (soup_text l ++ bs "<")) by (split; [reflexivity|apply Bd_0; auto]).
  destruct (soup_run U t cs void HU _ _ _ _ _ _ HD G NS sc0 p0 (bs "<") eq_refl eq_refl A) as (s1 & p1 & R1 & S1 & P1 & E1 & C1 & _); [right; eexists; reflexivity|exact I|].
  apply at_adv in A; [|auto|eapply soup_utf8; eauto]. cbn [Nat.add] in A, E1. rewrite <- E1, <- P1 in A.
  set (s2 := finish s1 (pos s1) StartTagOpen None (pos s1 + 1) AfterOpeningStartTag).
  set (p2 := mkP (node_new (pos s1) (length t)) (cur p1 :: parents p1) (end_tag_start p1) (end_tag_name p1) (pending p1)).
  assert (NX : nth_error t (pos s1 + 1) = None) by (apply nth_error_None; lia).
  assert (R2 : run U t cs void s1 p1 s2 p2).
  { apply one; [auto|..]; cbn [tok finish pos s2]; try discriminate; try lia.
    - apply O_start_tag_open; auto.
      + left; auto.
      + eapply at_first. exact A.
      + destruct A as [-> _]. reflexivity.
      + rewrite NX. discriminate.
      + rewrite (skipn_all2 t) by lia. reflexivity.
    - apply A.
    - reflexivity. }
  pose proof (run_trans _ _ _ _ _ _ _ _ _ _ R1 R2) as R.
  apply run_loop in R as (_ & k & K & E). cbn [pos sc0 scanner_new] in K. cbn [pos s2 finish] in K.
  unfold parse. fold sc0 p0.
  assert (F : exists f, scan_fuel t = k + S f) by (exists (scan_fuel t - k - 1); unfold scan_fuel; lia).
  destruct F as (f & ->). rewrite E. cbn [parse_loop]. assert (P2 : length t <= pos s2) by (cbn [pos s2 finish]; lia).
  rewrite scan_internal by auto. unfold internal_scan. cbn [st s2 finish]. unfold scan_after_opening_start_tag.
  rewrite eos_or_end by auto. cbn [bind tok finish]. cbn [token_eqb]. change (token_eqb EOS EOS) with true. cbn iota.
  cbn [bind cur parents p2]. cbn [close_all]. apply (collapse_hang e (e + 1) [new]) in C1. rewrite <- LT in C1 |- *.
  replace (add_child (cur p1) _) with (plus (cur p1) [new]) by (unfold add_child, plus, new; rewrite LT, <- P1; reflexivity).
  rewrite (collapse_all t _ _ _ _ C1). reflexivity.
Qed.
Lemma bracket_tokens : exists ks, doc_tokens U t cs = Ok ks /\
  exists k, In k ks /\ tk_type k = StartTagOpen /\ tk_off k = e /\ tk_end k = e + 1.
Proof.
  pose proof bracket_utf8 as HU. destruct bracket_len as [LE LT]. destruct HG as [G NS].
  set (sc0 := scanner_new 0 WithinContent).
  assert (A : at_ t (pos sc0) (soup_text l ++ bs "<")) by (split; [reflexivity|apply Bd_0; auto]).
  destruct (soup_trun U t true cs void HU l sc0 (bs "<") G NS eq_refl A) as (s1 & R1 & S1 & P1); [right; eexists; reflexivity|].
  apply at_adv in A; [|auto|eapply soup_utf8; eauto]. cbn [pos sc0 scanner_new] in A, P1. cbn [Nat.add] in A, P1. rewrite <- P1 in A.
  set (s2 := finish s1 (pos s1) StartTagOpen None (pos s1 + 1) AfterOpeningStartTag).
  assert (NX : nth_error t (pos s1 + 1) = None) by (apply nth_error_None; lia).
  assert (R2 : TokenRun.trun U t true cs s1 [(StartTagOpen, bs "<")] s2).
  { apply TokenRun.one with (r := []); try discriminate; try reflexivity; [auto| |rewrite app_nil_r; exact A].
    apply O_start_tag_open; auto.
    - left; auto.
    - eapply at_first. exact A.
    - destruct A as [-> _]. reflexivity.
    - rewrite NX. discriminate.
    - rewrite (skipn_all2 t) by lia. reflexivity. }
  pose proof (TokenRun.trun_trans _ _ _ _ _ _ _ _ _ R1 R2) as R. set (ps := flat_map lex_part l ++ [(StartTagOpen, bs "<")]) in *.
  set (n := length (filter written ps)).
  assert (J : joined ps = t) by (unfold ps, t; rewrite joined_app, joined_soup; reflexivity).
  assert (L : n <= length t) by (unfold n; rewrite written_length, J; auto).
  assert (E : exists z, tokens U t true cs (2 * length t + 2 - n) s2 = Ok ([], z)).
  { replace (2 * length t + 2 - n) with (Datatypes.S (2 * length t + 1 - n)) by lia. cbn [tokens]. assert (P2 : length t <= pos s2) by (cbn [pos s2 finish]; lia).
    rewrite scan_internal by auto. unfold internal_scan. cbn [st s2 finish]. unfold scan_after_opening_start_tag.
    rewrite eos_or_end by auto. cbn [bind tok finish]. change (token_eqb EOS EOS) with true. cbn iota. eauto. }
  destruct E as (z & E). destruct (trun_tokens _ _ _ _ _ _ _ R _ _ _ E) as (ks & T & Q1 & _ & _).
  fold n in T. replace (2 * length t + 2 - n + n) with (2 * length t + 2) in T by lia. rewrite app_nil_r in T. cbn [pos sc0 scanner_new] in Q1.
  exists ks. split; [unfold doc_tokens; fold sc0; rewrite T; reflexivity|].
  assert (I : In (StartTagOpen, e, e + 1) (place 0 (filter written ps))).
  { apply place_in. exists (flat_map lex_part l), (bs "<"), []. split; [reflexivity|]. split; [discriminate|]. rewrite joined_soup. split; [lia|reflexivity]. }
  rewrite <- Q1 in I. apply in_map_iff in I as (k & SK & K). exists k. unfold seen in SK. injection SK as S2 S3 S4. auto.
Qed.
End Bracket.

(** ** The theorems *)
Lemma last_child_in n c : last_child n = Some c -> In c (n_children n).
Proof.
  unfold last_child. induction (n_children n) as [|a r IH]; [discriminate|]. destruct r as [|b r]; [intros Q; injection Q as ->; left; reflexivity|].
  intros Q. right. apply IH. exact Q.
Qed.
Lemma name_at_end U t e : name_from U t (length t) e -> e = length t.
Proof.
  intros [(c & r & _ & S & _)|[E _]]; [|exact E]. exfalso. unfold sub in S. rewrite skipn_all2 in S by lia. rewrite firstn_nil in S.
  apply (f_equal (@length N)) in S. cbn [encode flat_map] in S. rewrite app_length in S. assert (0 < length (encode1 c)) by (unfold encode1; repeat (destruct (_ <? _)%N); cbn; lia). cbn [length] in S. lia.
Qed.
(** '<' was typed at the end of a sequence of parts: the doctype on the first line, the tags of the data
    in use, and the end tag of the innermost element left open, if one is. *)
Theorem C87_bracket : forall U cs void d l e left ns roots md parts providers lang ents settings order p items,
  good_soup U cs void l -> denotes U cs [] 0 l e left ns ->
  textdoc_ok d -> d_text d = soup_text l ++ bs "<" -> parse U (d_text d) cs void = Ok roots -> offset_at d p = length (d_text d) ->
  do_complete U d cs md parts providers lang ents settings order roots p = Ok items ->
  let o := length (d_text d) in
  exists doctype tags close, items = doctype ++ tags ++ close /\
    (line p = 0 -> exists i, doctype = [i] /\ ci_label i = bs "!DOCTYPE" /\ ci_edit i = Some (range_at d o o, bs "!DOCTYPE html>")) /\
    (line p <> 0 -> doctype = []) /\
    all_tags d providers lang settings o o tags /\
    (left = [] -> close = []) /\
    (forall left0 x, left = left0 ++ [x] -> exists A B i, innermost_left U cs l left0 x A B /\ close = [i] /\ closes d o (length (soup_text A)) o o x i).
Proof.
  intros U cs void d l e left ns roots md parts providers lang ents settings order p items G D HD ET HP EO C o. assert (HP' := HP). rewrite ET in HP'.
  rewrite (bracket_parse U cs void l e left ns G D) in HP'. apply Ok_inj in HP'.
  destruct (bracket_tokens U cs void l e left ns G D) as (ks & T & k & K & KT & KO & KE). rewrite <- ET in T. destruct (bracket_len U cs l e left ns D) as [LE LT]. rewrite <- ET in LT.
  destruct (C69_open_bracket U d cs void roots ks md parts providers lang ents settings order p k items HD HP T K KT ltac:(lia) C)
    as (n & b & dt & tags & close & N1 & N2 & NF & -> & DT1 & DT2 & TG & CL1 & CL2). rewrite EO in *. apply name_at_end in NF. subst b. fold o in DT1, TG, CL1, CL2.
  set (new := mkNode None e (e + 1) [] false None None []) in HP'.
  destruct (hung U cs void [] 0 l e left ns D (proj1 G) (e + 1) [new] ltac:(lia)) as (S0 & _ & S2 & S3). rewrite HP' in S0, S2, S3.
  assert (NN : n = new) by (eapply (same_start U d cs void roots HD HP); [exact N1|apply S0; left; reflexivity|rewrite N2; exact KO]). subst n.
  assert (FN : forall m, In m (flat_map preorder [new]) -> m = new) by (intros m [<-|[]]; reflexivity).
  assert (IB : forall m, In m (doc_nodes roots) -> inside new m -> n_start m < e /\ e + 1 <= n_end m) by
    (intros m M IM; destruct (inside_bounds U d cs void roots HD HP new m M IM) as (B1 & B2 & _); auto).
  exists dt, tags, close. split; [reflexivity|]. split; [|split; [exact DT2|split; [exact TG|split]]].
  - intros L0. destruct (DT1 L0) as (i & I1 & I2 & I3 & _). exists i. auto.
  - intros E0. apply CL2. intros y x (Y1 & Y2 & _). destruct (IB y Y1 Y2). apply (S2 E0) in Y1 as [Y1|Y1]; [apply FN in Y1; subst y; cbn in *; lia|lia].
  - intros left0 x E0. destruct (S3 left0 x E0) as (A & at0 & pd & B & kids & y & EL & DB & Y1 & Y2 & Y3 & Y4 & Y5 & Y6 & Y7 & Y8). cbn [Nat.add] in Y3, DB. rewrite app_nil_r in DB.
    destruct (CL1 y x) as (i & I1 & I2).
    { split; [exact Y1|]. split; [unfold inside; rewrite Y7, flat_map_app; apply in_app_iff; right; left; reflexivity|]. split; [exact Y2|]. split; [left; exact Y5|].
      intros m M1 M2 _ _. destruct (IB m M1 M2). apply Y8 in M1 as [M1|[M1|M1]]; [apply FN in M1; subst m; cbn in *; lia|lia|exact M1]. }
    exists A, B, i. split; [|rewrite <- Y3; auto]. exists at0, pd, kids. split; [exact EL|]. rewrite <- LE. exact DB.
Qed.
Print Assumptions C87_bracket.

(** '</' was typed there: that end tag alone, or, if no element is left open, the end tags of all the
    tags of the data in use. (In a document without a tag nothing is proposed.) *)
Theorem C87_slash : forall U cs void d l e left ns roots md parts providers lang ents settings order p items,
  good_soup U cs void l -> denotes U cs [] 0 l e left ns ->
  textdoc_ok d -> d_text d = soup_text l ++ bs "</" -> parse U (d_text d) cs void = Ok roots -> offset_at d p = length (d_text d) ->
  do_complete U d cs md parts providers lang ents settings order roots p = Ok items ->
  let o := length (d_text d) in
  (ns = [] -> items = []) /\
  (ns <> [] -> left = [] -> forall x doc, In (x, doc) (map (fun i => (ci_label i, ci_doc i)) items) <->
     exists q td, in_use providers lang settings q /\ In td (pv_tags q) /\ x = bs "/" ++ t_name td /\
       doc = as_doc (generate_documentation (t_desc td) (t_refs td) true true md)) /\
  (forall left0 x, left = left0 ++ [x] -> exists A B i, innermost_left U cs l left0 x A B /\ items = [i] /\ closes d o (length (soup_text A)) (e + 1) o x i).
Proof.
  intros U cs void d l e left ns roots md parts providers lang ents settings order p items G D HD ET HP EO C o. assert (HP' := HP). rewrite ET in HP'.
  rewrite (slash_parse U cs void l e left ns G D) in HP'. apply Ok_inj in HP'.
  destruct (slash_tokens U cs void l e left ns G D) as (ks & T & FI & k & K & KT & KO & KE). rewrite <- ET in T. destruct (slash_len U cs l e left ns D) as [LE LT]. rewrite <- ET in LT.
  rewrite <- hang_stretch in HP'.
  destruct (hung U cs void [] 0 l e left ns D (proj1 G) (e + 2) [] ltac:(lia)) as (_ & _ & S2 & S3). rewrite HP' in S2, S3. cbn [flat_map In] in S2, S3.
  destruct (found_total U d cs void roots HD HP o) as ([[n ps]|] & F).
  2:{ assert (NR : roots = []).
      { destruct roots as [|r rs]; [reflexivity|exfalso]. assert (R : In r (doc_nodes (r :: rs))) by (unfold doc_nodes; cbn [flat_map]; apply in_app_iff; left; apply preorder_in; auto).
        pose proof (found_none U d cs void _ HD HP o F r R) as L. destruct (span U d cs void _ HD HP r R) as (L1 & L2 & _). unfold o in L. lia. }
      assert (NL : left = []) by (destruct left as [|a left0] using rev_ind; [reflexivity|]; destruct (S3 left0 a eq_refl) as (? & ? & ? & ? & ? & y & _ & _ & Y & _); rewrite NR in Y; exfalso; exact Y).
      assert (NN : ns = []) by (rewrite NL in HP'; cbn [length hang] in HP'; rewrite app_nil_r in HP'; congruence).
      split; [|split; [congruence|intros left0 x E; rewrite NL in E; destruct left0; discriminate]].
      intros _. unfold do_complete in C. cbn zeta in C. rewrite EO in C. fold o in C. rewrite F in C. cbn [bind] in C. apply Ok_inj in C. auto. }
  destruct (C69_end_open U d cs void roots ks md parts providers lang ents settings order p k n ps items HD HP T K KT ltac:(lia) ltac:(rewrite EO; exact F) C)
    as (b & NF & _ & CL1 & CL2). rewrite EO in *. specialize (NF ltac:(lia)). apply name_at_end in NF. subst b. fold o in CL1, CL2. rewrite KO in CL1.
  assert (FD := found U d cs void roots HD HP o n ps F). destruct FD as (PA & NI & NL & GB & z & ZI & ZL & ZM & ZX).
  split; [|split].
  - intros NN. exfalso. assert (E0 : left = []) by (destruct left; [reflexivity|exfalso; eapply denotes_some; [exact D|discriminate|exact NN]]).
    rewrite E0, NN in HP'. cbn in HP'. subst roots. exact NI.
  - intros NN E0. apply CL2. rewrite E0 in HP'. cbn [length hang] in HP'. rewrite app_nil_r in HP'. subst roots.
    assert (RC := roots_closed U cs void _ _ _ _ _ _ D E0 (proj1 G)).
    assert (NG : forall r, In r ns -> ~ goes_below o r).
    { intros r R. destruct (RC r R) as (R1 & R2 & R3 & R4). intros [Q|(c & Q1 & Q2)]; [lia|].
      assert (CI := last_child_in _ _ Q1).
      assert (RD : In r (doc_nodes ns)) by (unfold doc_nodes; apply in_flat_map; exists r; split; [auto|apply preorder_in; auto]).
      destruct (n_ets r) as [b|] eqn:EB; [|rewrite (R4 eq_refl) in CI; destruct CI].
      destruct (inside_bounds U d cs void ns HD HP c r RD) as (_ & _ & B3); [unfold inside; apply in_flat_map; exists c; split; [auto|apply preorder_in; auto]|].
      specialize (B3 b EB). specialize (R3 b eq_refl). lia. }
    assert (NR : In n ns) by (inversion PA as [? ? R|? r ? ? R P]; subst; [exact R|]; apply Forall_cons_iff in GB as [GB _]; exfalso; exact (NG r R GB)).
    destruct (RC n NR) as (R1 & R2 & R3 & _).
    intros y x (Y1 & Y2 & _ & Y4 & _). destruct (up_whole U d cs void ns HD HP p n ps) with (m := y) as [_ UW]; [rewrite EO; exact F|].
    specialize (UW (conj Y1 Y2)). destruct UW as [<-|UW].
    + destruct Y4 as [Q|(b & Q & Q2)]; [congruence|]. specialize (R3 b Q). lia.
    + apply in_rev in UW. inversion PA as [? ? R|? r ? ? R P]; subst; [destruct UW|]. apply Forall_cons_iff in GB as [GB _]. exact (NG r R GB).
  - intros left0 x E0. destruct (S3 left0 x E0) as (A & at0 & pd & B & kids & y & EL & DB & Y1 & Y2 & Y3 & Y4 & Y5 & Y6 & Y7 & Y8). cbn [Nat.add] in Y3, DB. rewrite app_nil_r in DB, Y7.
    assert (UP : forall m, In m (doc_nodes roots) -> inside n m -> goes_below o m).
    { intros m M IM. destruct (up_whole U d cs void roots HD HP p n ps) with (m := m) as [_ UW]; [rewrite EO; exact F|].
      specialize (UW (conj M (or_intror IM))). rewrite Forall_forall in GB. destruct UW as [<-|UW]; [exfalso; apply (inside_bounds U d cs void roots HD HP) in IM; auto; lia|]. apply GB. apply in_rev in UW. exact UW. }
    assert (NY : ~ inside n y).
    { intros IY. destruct (UP y Y1 IY) as [Q|(c & Q1 & Q2)]; [lia|]. assert (CI := last_child_in _ _ Q1).
      rewrite Y7 in CI. assert (CB : In c (flat_map preorder kids)) by (apply in_flat_map; exists c; split; [auto|apply preorder_in; auto]).
      apply (denotes_bounds U cs void _ _ _ _ _ _ DB) in CB; [lia|]. destruct G as [G _]. rewrite EL in G. apply Forall_app in G as [_ G]. apply Forall_cons_iff in G as [_ G]. exact G. }
    assert (YN : inside y n -> goes_below o n).
    { intros IY. destruct (inside_bounds U d cs void roots HD HP y n NI IY) as (_ & B2 & _). destruct (span U d cs void roots HD HP n NI) as (_ & L2 & _).
      right. eapply last_child_end; [apply (node_nested U d cs void roots HD HP); exact NI|exact IY|lia]. }
    assert (SY := span U d cs void roots HD HP y Y1). destruct SY as (SY & _).
    assert (ZY : z = y \/ inside z y).
    { pose proof (ZM y Y1 ltac:(lia)) as Q. destruct (lam U d cs void roots HD HP z y ZI Y1) as [W|[W|[W|[W|W]]]]; auto.
      - apply (inside_bounds U d cs void roots HD HP) in W; auto. lia.
      - lia.
      - destruct (span U d cs void roots HD HP z ZI) as (W2 & _). lia. }
    assert (NE : n = y).
    { destruct ZX as [->|[ZN NG]].
      - destruct ZY as [ZY|ZY]; [exact ZY|contradiction].
      - destruct ZY as [->|ZY]; [exfalso; auto|].
        destruct (lam U d cs void roots HD HP n y NI Y1) as [W|[W|[W|[W|W]]]]; auto; try contradiction.
        + exfalso. auto.
        + apply (inside_bounds U d cs void roots HD HP) in ZN, ZY; auto. pose proof (span U d cs void roots HD HP z ZI) as (W2 & _). lia.
        + apply (inside_bounds U d cs void roots HD HP) in ZN, ZY; auto. pose proof (span U d cs void roots HD HP z ZI) as (W2 & _). lia. }
    subst n. destruct (CL1 y x) as (i & I1 & I2).
    { split; [exact Y1|]. split; [auto|]. split; [exact Y2|]. split; [left; exact Y5|]. intros m M1 [->|M2] _ _; [lia|]. apply (inside_bounds U d cs void roots HD HP) in M2; auto. lia. }
    exists A, B, i. split; [|rewrite <- Y3; auto]. exists at0, pd, kids. split; [exact EL|]. rewrite <- LE. exact DB.
Qed.
Print Assumptions C87_slash.

(** With something but white space in front of the '<' on its line, the proposal completes the end tag,
    and the document that results has one element less to close. *)
Theorem C87_accepted : forall U cs void d l e left0 x ns roots md parts providers lang ents settings order p items,
  good_soup U cs void l -> denotes U cs [] 0 l e (left0 ++ [x]) ns ->
  textdoc_ok d -> d_text d = soup_text l ++ bs "<" -> parse U (d_text d) cs void = Ok roots -> offset_at d p = length (d_text d) ->
  do_complete U d cs md parts providers lang ents settings order roots p = Ok items ->
  (forall s, ~ indent_of (d_text d) e s) ->
  exists i text ns', In i items /\ ci_label i = bs "/" ++ x /\ ci_edit i = Some (range_at d (length (d_text d)) (length (d_text d)), text) /\
    d_text d ++ text = soup_text (l ++ [Closing x []]) /\
    denotes U cs [] 0 (l ++ [Closing x []]) (length (d_text d ++ text)) left0 ns'.
Proof.
  intros U cs void d l e left0 x ns roots md parts providers lang ents settings order p items G D HD ET HP EO C NI.
  destruct (C87_bracket U cs void d l e _ ns roots md parts providers lang ents settings order p items G D HD ET HP EO C) as (dt & tags & close & -> & _ & _ & _ & _ & CL).
  destruct (CL left0 x eq_refl) as (A & B & i & _ & -> & (L & _ & _ & _ & _ & f & F & C1 & _)). destruct (close_last U cs [] 0 l e _ ns D left0 x eq_refl) as (ns' & D').
  destruct (bracket_len U cs l e _ ns D) as [LE LT]. rewrite <- ET in LT.
  assert (FF : f = false) by (destruct f; [|reflexivity]; destruct (proj1 F eq_refl) as (j & J1 & _ & J2); rewrite (proj2 (nth_error_None _ _) J1) in J2; discriminate).
  subst f. destruct C1 as [_ C1]; [intros si ei _ EI; exfalso; apply (NI ei); replace e with (length (d_text d) - 1) by lia; exact EI|].
  assert (TX : d_text d ++ bs "/" ++ x ++ bs ">" = soup_text (l ++ [Closing x []])).
  { rewrite ET. unfold soup_text. rewrite flat_map_app, <- app_assoc. cbn [flat_map part_text]. unfold end_tag. rewrite app_nil_r. reflexivity. }
  exists i, (bs "/" ++ x ++ bs ">"), ns'. split; [apply in_app_iff; right; apply in_app_iff; right; left; reflexivity|]. split; [exact L|]. split; [exact C1|].
  split; [exact TX|]. replace (length (d_text d ++ bs "/" ++ x ++ bs ">")) with (e + length (end_tag x [])); [exact D'|].
  rewrite app_length, LT. unfold end_tag. rewrite !app_length. cbn [length]. change (length (bs "</")) with 2. change (length (bs "/")) with 1. change (length (bs ">")) with 1. lia.
Qed.
Print Assumptions C87_accepted.

(** Completion always answers there. *)
Theorem C87_answers : forall U cs void d l more roots md parts providers lang ents settings order p,
  good_soup U cs void l -> textdoc_ok d -> more = bs "<" \/ more = bs "</" -> d_text d = soup_text l ++ more ->
  parse U (d_text d) cs void = Ok roots -> offset_at d p = length (d_text d) ->
  exists items, do_complete U d cs md parts providers lang ents settings order roots p = Ok items.
Proof.
  intros U cs void d l more roots md parts providers lang ents settings order p G HD M ET HP EO. destruct (C82_parse U cs void l G) as (left & ns & D & _).
  assert (Q : exists ks k, doc_tokens U (d_text d) cs = Ok ks /\ In k ks /\ tk_type k <> AttributeValue /\ tk_off k < tk_end k /\ tk_end k = length (d_text d)).
  { rewrite ET. destruct M as [-> | ->].
    - destruct (bracket_tokens U cs void l _ left ns G D) as (ks & T & k & K & KT & KO & KE). destruct (bracket_len U cs l _ left ns D) as [LE LT].
      exists ks, k. split; [exact T|]. split; [exact K|]. split; [congruence|]. split; lia.
    - destruct (slash_tokens U cs void l _ left ns G D) as (ks & T & _ & k & K & KT & KO & KE). destruct (slash_len U cs l _ left ns D) as [LE LT].
      exists ks, k. split; [exact T|]. split; [exact K|]. split; [congruence|]. split; lia. }
  destruct Q as (ks & k & T & K & KT & KO & KE). apply (C58_completion U d cs void roots ks); auto.
  - rewrite EO. intros a LA H. destruct (Nat.eq_dec a (length (d_text d))) as [-> |NE]; [lia|exfalso]. destruct (H (length (d_text d) - 1) ltac:(lia)) as (c & N & C).
    assert (E : c = 60%N \/ c = 47%N).
    { rewrite ET, app_length in N. destruct M as [-> | ->]; [change (length (bs "<")) with 1 in N|change (length (bs "</")) with 2 in N];
        (rewrite nth_error_app2 in N by lia); match type of N with nth_error _ ?x = _ => first [replace x with 0 in N by lia|replace x with 1 in N by lia] end; cbn in N; injection N as <-; auto. }
    unfold alnum in C. lia.
  - rewrite EO. intros k' K' (V1 & V2 & _). apply KT. replace k with k'; [exact V1|].
    assert (TL : tiles 0 ks (length (d_text d))) by (eapply doc_tiles; eauto; apply HD). pose proof (tiles_bounds _ _ _ _ TL K'). eapply tiles_end_inj; eauto; lia.
Qed.
Print Assumptions C87_answers.

(** ** A document of this kind *)
(** The list, an item and a word are left open, with a closed element and a stray end tag between. *)
Definition labels (t : str) : res (list (str * option str)) :=
  let d := utf16_doc t in
  do roots <- parse demo_unicode (d_text d) false html5_void;
  do items <- do_complete demo_unicode d false false [] [] (bs "html") [] None (fun l => l) roots (position_at d (length (d_text d)));
  Ok (map (fun i => (ci_label i, option_map snd (ci_edit i))) items).
Example C87_labels :
  map labels [soup_text mixed ++ bs "<"; soup_text mixed ++ bs "</"; open_text ++ bs "</"; bs "<p>a</p>" ++ bs "<"; bs "<ul>" ++ [10; 32; 32]%N ++ bs "<"] =
  [Ok [(bs "!DOCTYPE", Some (bs "!DOCTYPE html>")); (bs "/b", Some (bs "/b>"))]; Ok [(bs "/b", Some (bs "/b>"))]; Ok [(bs "/b", Some (bs "/b>"))];
   Ok [(bs "!DOCTYPE", Some (bs "!DOCTYPE html>"))]; Ok [(bs "/ul", Some (bs "</ul>"))]].
Proof. vm_compute. reflexivity. Qed.
(** It meets the conditions of the theorems. *)
Example C87_mixed : exists roots items i text ns', let d := utf16_doc (soup_text mixed ++ bs "<") in let p := position_at d (length (d_text d)) in
  do_complete demo_unicode d false false [] [] (bs "html") [] None (fun l => l) roots p = Ok items /\
  In i items /\ ci_label i = bs "/b" /\ ci_edit i = Some (range_at d (length (d_text d)) (length (d_text d)), text) /\
  d_text d ++ text = bs "<ul><li>a<li>b</UL></p><b><br></b>" /\
  denotes demo_unicode false [] 0 (mixed ++ [Closing (bs "b") []]) (length (d_text d ++ text)) [] ns'.
Proof.
  set (d := utf16_doc (soup_text mixed ++ bs "<")). set (p := position_at d (length (d_text d))).
  pose proof (bracket_utf8 _ _ _ _ mixed_good) as HU. pose proof (C27_contract _ HU) as HD. fold d in HD.
  pose proof (bracket_parse _ _ _ _ _ _ _ mixed_good (proj1 C82_mixed)) as HP. change (soup_text mixed ++ bs "<") with (d_text d) in HP.
  match type of HP with _ = Ok ?r => set (roots := r) in HP end.
  assert (EO : offset_at d p = length (d_text d)) by (vm_compute; reflexivity).
  destruct (do_complete demo_unicode d false false [] [] (bs "html") [] None (fun l => l) roots p) as [items| |] eqn:C; [|exfalso; vm_compute in C; discriminate..].
  destruct (C87_accepted demo_unicode false html5_void d mixed 30 [] (bs "b") mixed_nodes roots false [] [] (bs "html") [] None (fun l => l) p items
    mixed_good (proj1 C82_mixed) HD eq_refl HP EO C) as (i & text & ns' & I1 & I2 & I3 & I4 & I5).
  { intros s (b & B1 & _ & B2 & B3). assert (B : b = 0).
    { destruct B2 as [B2|B2]; [exact B2|exfalso]. do 31 (destruct b as [|b]; [vm_compute in B2; discriminate|]). lia. }
    subst b. destruct (B3 0 ltac:(lia)) as (c & N & _ & Q). vm_compute in N. injection N as <-. destruct Q as [Q|Q]; [vm_compute in Q; discriminate|lia]. }
  exists roots, items, i, text, ns'. cbn zeta. split; [exact C|]. split; [exact I1|]. split; [exact I2|]. split; [exact I3|]. split; [rewrite I4; reflexivity|exact I5].
Qed.
