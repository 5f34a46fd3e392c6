(** * What the formatter writes for a well-formed document is well-formed and has the same outline *)
From Verif Require Import Base Stream Scanner BaseFacts ScannerFacts ScanProps ScanLocal Tree Parser ParseSpec ParseOrder
  Formatter FormatFacts FormatWords Render RenderFacts PropRender PropFormat Layout.
From Coq Require Import ZifyBool ZifyNat ZifyN Permutation.

(** ** The outline of a document: names, attributes and words, no white space *)
Inductive outline :=
| OText (w : list (list N))
| OComment (w : list (list N))
| ODoctype (word : str) (w : list (list N))
| OElement (name : str) (attrs : list (str * option str)) (body : list outline)
| ORaw (name : str) (attrs : list (str * option str)) (w : list (list N))
| OEmpty (name : str) (attrs : list (str * option str)).
Definition otext (w : list (list N)) : list outline := match w with [] => [] | _ => [OText w] end.
Fixpoint outline_of (h : html) : list outline :=
  match h with
  | HText s => otext (text_words s)
  | HComment s => [OComment (text_words s)]
  | HDoctype word s => [ODoctype word (text_words s)]
  | HElement name attrs _ body _ _ => [OElement name (plain_attrs attrs) (flat_map outline_of body)]
  | HRaw name attrs _ s _ => [ORaw name (plain_attrs attrs) (text_words s)]
  | HVoid name attrs _ | HSelf name attrs _ => [OEmpty name (plain_attrs attrs)]
  end.
Definition outlines (l : list html) : list outline := flat_map outline_of l.

(** ** Text without elements *)
Definition pieces (l : list html) : Prop := Forall (fun h => is_element h = false) l.
Definition lead (l : list html) : str := match l with HText x :: _ => x | _ => [] end.
Definition unlead (l : list html) : list html := match l with HText _ :: r => r | _ => l end.
Definition no_lead (l : list html) : Prop := match l with HText _ :: _ => False | _ => True end.
Definition tcons (s : str) (l : list html) : list html := match s with [] => l | _ => HText s :: l end.

Lemma no_split_cons h l : is_element h = true \/ (forall x, h <> HText x) -> no_split l -> no_split (h :: l).
Proof. intros H N. destruct h; try exact N. destruct H as [H|H]; [discriminate|exfalso; eapply H; eauto]. Qed.
Lemma no_split_tail h l : no_split (h :: l) -> no_split l.
Proof. destruct h; auto. destruct l as [|[]]; cbn; tauto. Qed.
Lemma no_split_text x l : no_split (HText x :: l) -> no_lead l.
Proof. destruct l as [|[]]; cbn; tauto. Qed.
Lemma no_split_tcons s l : no_lead l -> no_split l -> no_split (tcons s l).
Proof. intros H N. destruct s as [|b s]; auto. cbn [tcons]. destruct l as [|[]]; cbn in *; tauto. Qed.
Lemma render_tcons s l : render_all (tcons s l) = s ++ render_all l.
Proof. destruct s; reflexivity. Qed.
Lemma outlines_tcons s l : outlines (tcons s l) = otext (text_words s) ++ outlines l.
Proof. destruct s; reflexivity. Qed.
Lemma no_split_app p h q : is_element h = true -> no_split p -> no_split q -> no_split (p ++ h :: q).
Proof.
  intros E P Q. induction p as [|x p IH]; cbn [app].
  - apply no_split_cons; auto.
  - pose proof (no_split_tail _ _ P) as P'. specialize (IH P'). destruct x; auto.
    cbn [no_split]. destruct p as [|y p]; cbn [app].
    + destruct h; try discriminate; exact IH.
    + destruct y; auto.
Qed.
Lemma no_split_app_l p q : no_split (p ++ q) -> no_split p.
Proof.
  induction p as [|x p IH]; cbn [app]; [cbn; auto|]. intros H. pose proof (IH (no_split_tail _ _ H)) as N.
  destruct x; auto. apply no_split_text in H. cbn [no_split]. destruct p as [|[] p]; cbn in *; auto.
Qed.
Lemma no_split_app_r p q : no_split (p ++ q) -> no_split q.
Proof. induction p as [|x p IH]; cbn [app]; auto. intros H. apply IH. eapply no_split_tail; eauto. Qed.

Section Tree.
Variables (U : unicode) (cs : bool) (void : list str).
Notation good := (good U cs void).

Lemma all_utf8 l : Forall good l -> Utf8 (render_all l).
Proof. induction 1 as [|h l G F IH]; [apply utf8_nil|]. cbn [render_all flat_map]. apply utf8_app; [eapply render_utf8; eauto|auto]. Qed.
Lemma doctype_mark word : map ascii_lower word = bs "doctype" -> mark (bs "<!" ++ word).
Proof.
  intros H. split; [discriminate|]. rewrite forallb_app. apply andb_true_iff. split; [reflexivity|].
  apply forallb_forall. intros b B. assert (I : In (ascii_lower b) (bs "doctype")) by (rewrite <- H; apply in_map; auto).
  assert (L : (97 <= ascii_lower b <= 122)%N).
  { revert I. generalize (ascii_lower b). intros c. cbn. intros I. repeat (destruct I as [I|I]; [subst c; lia|]). destruct I. }
  unfold ascii_lower, ascii_upper_letter in L. unfold is_uspace. destruct ((65 <=? b) && (b <=? 90))%N eqn:E; lia.
Qed.
Lemma tw_around a b c : white a -> Utf8 b -> white c -> text_words (a ++ b ++ c) = text_words b.
Proof. intros A B C. rewrite tw_white_l by auto. apply tw_white_r; auto. Qed.

Lemma pieces_lead p : Forall good p -> pieces p -> no_split p -> forall s', Utf8 s' -> text_words s' = text_words (render_all p) ->
  exists x p', s' = x ++ render_all p' /\ Utf8 x /\ text_words x = text_words (lead p) /\ no_lead p' /\
    Forall good p' /\ pieces p' /\ no_split p' /\ outlines p' = outlines (unlead p).
Proof.
  induction 1 as [|h r G F IH]; intros P NS s' Us E.
  - exists s', []. cbn [render_all flat_map]. rewrite app_nil_r. split; [auto|]. split; [auto|]. split; [exact E|].
    split; [exact I|]. split; [constructor|]. split; [constructor|]. split; [exact I|reflexivity].
  - inversion P as [|? ? PH PR]; subst. pose proof (no_split_tail _ _ NS) as NR. specialize (IH PR NR).
    pose proof (all_utf8 r F) as Ur. cbn [render_all flat_map] in E. change (flat_map render r) with (render_all r) in E.
    assert (NEXT : forall e, Utf8 e -> text_words e = text_words (render_all r) ->
      exists l', render_all l' = e /\ Forall good l' /\ pieces l' /\ no_split l' /\ outlines l' = outlines r).
    { intros e Ue Ee. destruct (IH e Ue Ee) as (x & p' & -> & Ux & Wx & L & G' & P' & N' & O').
      exists (tcons x p'). rewrite render_tcons, outlines_tcons. split; [auto|]. split.
      - destruct x as [|b x]; auto. constructor; auto. constructor. split; [discriminate|]. split; auto.
        intros I. apply (tw_byte 60%N _ (lead r)) in I; auto; try reflexivity.
        + destruct r as [|[] r]; cbn in I; auto. inversion F; subst. inversion H1; subst. apply H0; auto.
        + destruct r as [|[] r]; cbn; auto using utf8_nil. inversion F; subst. inversion H1; subst. apply H0.
      - split; [destruct x; auto; constructor; auto|]. split; [apply no_split_tcons; auto|].
        rewrite Wx, O'. destruct r as [|[] r]; reflexivity. }
    destruct h as [t|c|w c|? ? ? ? ? ?|? ? ? ? ?|? ? ?|? ? ?]; try discriminate.
    + inversion G as [? T| | | | | | |]; subst. cbn [render] in E. destruct T as (T1 & T2 & T3).
      apply tw_split in E as (a & b & -> & A1 & B1 & A2 & B2); auto.
      destruct (IH b B1 B2) as (x & p' & -> & Ux & Wx & L & G' & P' & N' & O').
      assert (X : text_words x = []) by (rewrite Wx; apply no_split_text in NS; destruct r as [|[] r]; cbn in *; tauto).
      exists (a ++ x), p'. rewrite app_assoc_reverse. split; [auto|]. split; [apply utf8_app; auto|].
      split; [cbn [lead]; rewrite tw_white_r; auto; apply tw_nil; auto|].
      repeat (split; [assumption|]). cbn [unlead]. rewrite O'. apply no_split_text in NS. destruct r as [|[] r]; auto; destruct NS.
    + inversion G as [|? Uc NO| | | | | |]; subst. cbn [render] in E. rewrite !app_assoc_reverse in E.
      assert (M1 : mark (bs "<!--")) by (split; [discriminate|reflexivity]).
      assert (M2 : mark (bs "-->")) by (split; [discriminate|reflexivity]).
      apply tw_split_mark in E as (w & w1 & b & -> & W & W1 & B1 & B2); auto;
        [|repeat apply utf8_app; auto using mark_utf8].
      apply tw_split in B2 as (c' & d & -> & C1 & D1 & C2 & D2); auto; [|apply utf8_app; auto using mark_utf8].
      apply tw_split_mark in D2 as (w2 & w3 & e & -> & W2 & W3 & E1 & E2); auto.
      destruct (NEXT (w3 ++ e)) as (l' & R' & G' & P' & N' & O').
      { apply utf8_app; auto. apply W3. } { rewrite tw_white_l; auto. }
      assert (CW : text_words (w1 ++ c' ++ w2) = text_words c) by (rewrite tw_around; auto).
      assert (CU : Utf8 (w1 ++ c' ++ w2)) by (repeat apply utf8_app; auto; [apply W1|apply W2]).
      exists w, (HComment (w1 ++ c' ++ w2) :: l'). cbn [render_all flat_map render lead unlead no_lead].
      change (flat_map render l') with (render_all l'). rewrite R', !app_assoc_reverse. split; [reflexivity|].
      split; [apply W|]. split; [apply tw_white; auto|]. split; [exact I|].
      split; [constructor; auto; constructor; auto; intros OC; apply NO; apply (tw_occurs _ (w1 ++ c' ++ w2)); auto|].
      split; [constructor; auto|]. split; [exact N'|]. unfold outlines in *. cbn [flat_map outline_of]. rewrite O', CW. auto.
    + inversion G as [| |? ? WD Uc NO| | | | |]; subst. cbn [render] in E.
      replace ((bs "<!" ++ w ++ c ++ bs ">") ++ render_all r) with ((bs "<!" ++ w) ++ c ++ bs ">" ++ render_all r) in E
        by (rewrite !app_assoc_reverse; reflexivity).
      assert (M1 : mark (bs "<!" ++ w)) by (apply doctype_mark; auto).
      assert (M2 : mark (bs ">")) by (split; [discriminate|reflexivity]).
      apply tw_split_mark in E as (w0 & w1 & b & -> & W & W1 & B1 & B2); auto;
        [|repeat apply utf8_app; auto using mark_utf8].
      apply tw_split in B2 as (c' & d & -> & C1 & D1 & C2 & D2); auto; [|apply utf8_app; auto using mark_utf8].
      apply tw_split_mark in D2 as (w2 & w3 & e & -> & W2 & W3 & E1 & E2); auto.
      destruct (NEXT (w3 ++ e)) as (l' & R' & G' & P' & N' & O').
      { apply utf8_app; auto. apply W3. } { rewrite tw_white_l; auto. }
      assert (CW : text_words (w1 ++ c' ++ w2) = text_words c) by (rewrite tw_around; auto).
      assert (CU : Utf8 (w1 ++ c' ++ w2)) by (repeat apply utf8_app; auto; [apply W1|apply W2]).
      exists w0, (HDoctype w (w1 ++ c' ++ w2) :: l'). cbn [render_all flat_map render lead unlead no_lead].
      change (flat_map render l') with (render_all l'). rewrite R', !app_assoc_reverse. split; [reflexivity|].
      split; [apply W|]. split; [apply tw_white; auto|]. split; [exact I|].
      split; [constructor; auto; constructor; auto; intros OC; apply NO; apply (tw_byte 62%N (w1 ++ c' ++ w2)); auto; reflexivity|].
      split; [constructor; auto|]. split; [exact N'|]. unfold outlines in *. cbn [flat_map outline_of]. rewrite O', CW. auto.
Qed.
Lemma pieces_words p s' : Forall good p -> pieces p -> no_split p -> Utf8 s' -> text_words s' = text_words (render_all p) ->
  exists p', render_all p' = s' /\ Forall good p' /\ pieces p' /\ no_split p' /\ outlines p' = outlines p.
Proof.
  intros F P N Us E. destruct (pieces_lead p F P N s' Us E) as (x & p' & -> & Ux & Wx & L & G' & P' & N' & O').
  exists (tcons x p'). rewrite render_tcons, outlines_tcons. split; [auto|]. split.
  - destruct x as [|b x]; auto. constructor; auto. constructor. split; [discriminate|]. split; auto.
    intros I. apply (tw_byte 60%N _ (lead p)) in I; auto; try reflexivity.
    + destruct p as [|[] p]; cbn in I; auto. inversion F; subst. inversion H1; subst. apply H0; auto.
    + destruct p as [|[] p]; cbn; auto using utf8_nil. inversion F; subst. inversion H1; subst. apply H0.
  - split; [destruct x; auto; constructor; auto|]. split; [apply no_split_tcons; auto|].
    rewrite Wx, O'. destruct p as [|[] p]; reflexivity.
Qed.

(** ** The formatted document *)
Section Next.
Variable o : format_options.
(** The view of what is written for an element. *)
Section Ends.
Variable f : view -> view.
Variables (level : nat) (close : str).
Fixpoint ends (first : str) (rest : list (view * str)) : str * list (view * str) :=
  match rest with
  | [] => (beautify_text o first level ++ close, [])
  | (v, g) :: r => (beautify_text o first level ++ [LF] ++ get_indent o level, (f v, fst (ends g r)) :: snd (ends g r))
  end.
End Ends.
Fixpoint next (level : nat) (v : view) : view :=
  match v with
  | VEmpty name attrs => VEmpty name attrs
  | VElem name attrs inner first rest =>
      let ww := wraps o level name attrs inner in
      match rest with
      | [] => let s := leaf o level ww inner ++ newline o ww level in VElem name attrs s s []
      | _ :: _ =>
          let e := ends (next (S level)) (S level) (newline o ww level) first rest in
          VElem name attrs (beautify_text o first (S level) ++ kids o (out o (S level)) (S level) rest ++ newline o ww level)
            (fst e) (snd e)
      end
  end.

Lemma indent_blank level : blank (get_indent o level).
Proof. intros b B. unfold get_indent, rep in B. destruct (insert_spaces o); apply repeat_spec in B; subst b; cbn; auto. Qed.
Lemma lf_blank : blank [LF].
Proof. intros b [<-|[]]. cbn. auto. Qed.
Lemma blank_app a b : blank a -> blank b -> blank (a ++ b).
Proof. intros A B x X. apply in_app_or in X as [X|X]; auto. Qed.
Lemma newline_blank b level : blank (newline o b level).
Proof. destruct b; [apply blank_app; [apply lf_blank|apply indent_blank]|intros x []]. Qed.
Lemma sep_blank w level : blank (attr_sep o w level).
Proof.
  unfold attr_sep. destruct w; [|intros b [<-|[]]; cbn; auto]. apply blank_app; [apply lf_blank|].
  unfold get_attr_indent. apply blank_app; [apply indent_blank|].
  assert (R : forall n, blank (rep SP n)) by (intros n b B; unfold rep in B; apply repeat_spec in B; subst b; cbn; auto).
  destruct (wrap_attributes_indent_size o) as [n|], (insert_spaces o); auto using lf_blank.
  destruct (0 <? n); [apply lf_blank|intros b []].
Qed.
Lemma sep_some w level : attr_sep o w level <> [].
Proof. destruct w; discriminate. Qed.
Lemma newline_white b level : white (newline o b level).
Proof. destruct b; [|split; [apply utf8_nil|reflexivity]]. apply white_app; [apply white_lf|apply white_indent]. Qed.

(** Attributes are written with one separator and without white space before '='. *)
Definition tight (v : hvalue) : hvalue :=
  match v with NoValue => NoValue | Bare _ v => Bare [] v | Quoted _ q v => Quoted [] q v end.
Definition attr_next (w : bool) (level : nat) (a : hattr) : hattr :=
  mkHAttr (attr_sep o w level) (ha_name a) (tight (ha_value a)).
Definition attrs_next w level l := map (attr_next w level) l.
Lemma attrs_next_names w level l : map ha_name (attrs_next w level l) = map ha_name l.
Proof. unfold attrs_next. rewrite map_map. reflexivity. Qed.
Lemma attrs_next_plain w level l : plain_attrs (attrs_next w level l) = plain_attrs l.
Proof.
  unfold plain_attrs, attrs_next. rewrite map_map. apply map_ext. intros a. cbn. destruct (ha_value a); reflexivity.
Qed.
Lemma attrs_next_good w level l : good_attrs l -> good_attrs (attrs_next w level l).
Proof.
  intros [F N]. split; [|rewrite attrs_next_names; auto]. unfold attrs_next. apply Forall_map.
  eapply Forall_impl; [|exact F]. intros a (A1 & A2 & A3 & A4 & A5). split; [apply sep_blank|]. split; [apply sep_some|].
  split; [auto|]. split; [auto|]. cbn. destruct (ha_value a); cbn in *; auto; destruct A5 as [_ A5]; (split; [intros b []|auto]).
Qed.
Lemma attrs_next_render w level l : render_attrs (attrs_next w level l) = attrs_text o w level (plain_attrs l).
Proof.
  unfold render_attrs, attrs_text, attrs_next, plain_attrs. induction l as [|a l IH]; auto.
  cbn [map flat_map]. rewrite IH. f_equal. unfold render_attr, attr_next. cbn [ha_space ha_name ha_value fst snd].
  destruct (ha_value a); reflexivity.
Qed.
Lemma attrs_next_type w level l (P : str -> Prop) : Forall (fun a => P (ha_name a)) l -> Forall (fun a => P (ha_name a)) (attrs_next w level l).
Proof. intros F. unfold attrs_next. apply Forall_map. exact F. Qed.

Definition next_ok (h : html) : Prop := forall level, exists h', good h' /\ is_element h' = true /\ render h' = out o level (view_of h) /\
  view_of h' = next level (view_of h) /\ outline_of h' = outline_of h.

Lemma group_app p q : pieces p -> groups (p ++ q) = (render_all p ++ fst (groups q), snd (groups q)).
Proof.
  induction 1 as [|h p H P IH]; cbn [app]; [destruct (groups q); reflexivity|]. unfold groups in *. cbn [group]. rewrite H, IH.
  cbn [fst snd render_all flat_map]. rewrite app_assoc_reverse. reflexivity.
Qed.
Lemma group_pieces p : pieces p -> groups p = (render_all p, []).
Proof. intros P. pose proof (group_app p [] P) as H. rewrite app_nil_r in H. rewrite H. cbn. rewrite app_nil_r. reflexivity. Qed.
Lemma render_app p q : render_all (p ++ q) = render_all p ++ render_all q.
Proof. unfold render_all. apply flat_map_app. Qed.
Lemma bt_utf8 s level : Utf8 s -> Utf8 (beautify_text o s level).
Proof. intros H. apply beautify_text_ink. auto. Qed.

Lemma body_next level c body : white c -> Forall (fun h => good h /\ (is_element h = true -> next_ok h)) body ->
  forall q, Forall good q -> pieces q -> no_split (q ++ body) ->
  exists body', Forall good body' /\ no_split body' /\
    render_all body' = beautify_text o (render_all q ++ fst (groups body)) level ++ kids o (out o level) level (snd (groups body)) ++ c /\
    groups body' = ends (next level) level c (render_all q ++ fst (groups body)) (snd (groups body)) /\
    outlines body' = outlines (q ++ body).
Proof.
  intros WC. induction 1 as [|h r [G K] F IH]; intros q GQ PQ NS.
  - rewrite app_nil_r in *. cbn [groups group fst snd kids ends]. rewrite app_nil_r. cbn [app].
    pose proof (all_utf8 q GQ) as Uq.
    destruct (pieces_words q (beautify_text o (render_all q) level ++ c)) as (p' & R' & G' & P' & N' & O'); auto.
    + apply utf8_app; [apply bt_utf8; auto|apply WC].
    + rewrite tw_white_r by (auto using bt_utf8). apply tw_beautify_text. auto.
    + exists p'. split; [auto|]. split; [auto|]. split; [auto|]. split; [rewrite group_pieces by auto; rewrite R'; auto|auto].
  - unfold groups in *. cbn [group]. destruct (is_element h) eqn:EH.
    + cbn [fst snd kids ends]. rewrite app_nil_r. pose proof (all_utf8 q GQ) as Uq.
      destruct (K eq_refl level) as (h' & Gh' & Eh' & Rh' & Vh' & Oh').
      assert (WI : white ([LF] ++ get_indent o level)) by (apply white_app; [apply white_lf|apply white_indent]).
      destruct (pieces_words q (beautify_text o (render_all q) level ++ [LF] ++ get_indent o level)) as (p' & R' & G' & P' & N' & O'); auto.
      { apply no_split_app_l in NS. auto. }
      { apply utf8_app; [apply bt_utf8; auto|apply WI]. }
      { rewrite tw_white_r by (auto using bt_utf8). apply tw_beautify_text. auto. }
      destruct (IH [] ltac:(constructor) ltac:(constructor) ltac:(apply no_split_app_r, no_split_tail in NS; auto))
        as (b' & Gb' & Nb' & Rb' & Vb' & Ob').
      exists (p' ++ h' :: b'). split; [apply Forall_app; auto|]. split; [apply no_split_app; auto|].
      split; [|split].
      * rewrite render_app. cbn [render_all flat_map]. change (flat_map render b') with (render_all b').
        rewrite R', Rb', Rh'. cbn [render_all flat_map app]. rewrite !app_assoc_reverse. reflexivity.
      * fold (groups (p' ++ h' :: b')). rewrite group_app by auto. unfold groups. cbn [group]. rewrite Eh'. cbn [fst snd].
        rewrite Vb', Vh', app_nil_r, R'. reflexivity.
      * unfold outlines in *. rewrite !flat_map_app. cbn [flat_map]. rewrite O', Oh', Ob'. reflexivity.
    + cbn [fst snd]. destruct (IH (q ++ [h])) as (b' & Gb' & Nb' & Rb' & Vb' & Ob').
      { apply Forall_app. auto. } { apply Forall_app. auto. } { rewrite app_assoc_reverse. auto. }
      rewrite render_app, app_assoc_reverse in Rb', Vb'. cbn [render_all flat_map] in Rb', Vb'. rewrite app_nil_r in Rb', Vb'.
      rewrite app_assoc_reverse in Ob'. exists b'. auto.
Qed.
Lemma tw_leaf level w s : Utf8 s -> Utf8 (leaf o level w s) /\ text_words (leaf o level w s) = text_words s.
Proof.
  intros H. unfold leaf. cbv zeta. pose proof (bt_utf8 s (S level) H) as B. destruct (_ && _).
  - assert (WI : white ([LF] ++ get_indent o (S level))) by (apply white_app; [apply white_lf|apply white_indent]).
    rewrite app_assoc. split; [apply utf8_app; [apply WI|apply trim_start_utf8; auto]|].
    rewrite tw_white_l, tw_trim_start, tw_beautify_text by auto. auto.
  - split; auto. apply tw_beautify_text. auto.
Qed.
Lemma same_refl n : same U cs n n.
Proof. unfold same. destruct cs; auto. Qed.

Lemma next_ok_all h : good h -> is_element h = true -> next_ok h.
Proof.
  revert h. fix IH 1. intros h G EH level.
  destruct h as [x|x|w x|name attrs pad body close pad2|name attrs pad x pad2|name attrs pad|name attrs pad]; try discriminate.
  - assert (GA : good_attrs attrs) by (inversion G; auto). assert (GB : Forall good body) by (inversion G; auto).
    assert (FB : Forall (fun h => good h /\ (is_element h = true -> next_ok h)) body).
    { clear - IH GB. revert body GB. fix IHl 1. intros body GB. destruct body as [|h l]; [constructor|].
      constructor; [split; [inversion GB; auto|intros E; apply IH; [inversion GB; auto|auto]]|apply IHl; inversion GB; auto]. }
    clear IH. rewrite view_element. cbn [out next].
    set (wl := too_long o _). set (ww := wraps o level name (plain_attrs attrs) (render_all body)).
    assert (EL : exists body', Forall good body' /\ no_split body' /\
      render_all body' = match snd (groups body) with [] => leaf o level ww (render_all body)
        | _ :: _ => beautify_text o (fst (groups body)) (S level) ++ kids o (out o (S level)) (S level) (snd (groups body)) end ++ newline o ww level /\
      VElem name (plain_attrs attrs) (render_all body') (fst (groups body')) (snd (groups body')) =
        next level (VElem name (plain_attrs attrs) (render_all body) (fst (groups body)) (snd (groups body))) /\
      outlines body' = outlines body).
    { assert (NB : no_split body) by (inversion G; auto). cbn [next]. fold ww. destruct (snd (groups body)) as [|x q] eqn:Q.
      - assert (PB : pieces body).
        { clear - Q. induction body as [|h r IH]; [constructor|]. unfold groups in Q. cbn [group] in Q. destruct (is_element h) eqn:E; [discriminate|].
          constructor; [exact E|apply IH; exact Q]. }
        pose proof (all_utf8 body GB) as Ub. destruct (tw_leaf level ww (render_all body) Ub) as [L1 L2].
        destruct (pieces_words body (leaf o level ww (render_all body) ++ newline o ww level)) as (p' & R' & G' & P' & N' & O'); auto.
        + apply utf8_app; auto. apply newline_white.
        + rewrite tw_white_r; auto using newline_white.
        + exists p'. split; [auto|]. split; [auto|]. split; [auto|]. split; [|auto]. rewrite group_pieces by auto. cbn [fst snd].
          rewrite R'. reflexivity.
      - destruct (body_next (S level) (newline o ww level) body (newline_white _ _) FB []) as (b' & Gb' & Nb' & Rb' & Vb' & Ob');
          [constructor|constructor|exact NB|]. cbn [render_all flat_map app] in Rb', Vb', Ob'. change (flat_map render b') with (render_all b') in Rb'.
        exists b'. split; [auto|]. split; [auto|]. rewrite Q in *. split; [rewrite Rb'; rewrite app_assoc_reverse; reflexivity|]. split; [|auto].
        rewrite Rb', Vb'. reflexivity. }
    destruct EL as (body' & Gb' & Nb' & Rb' & Vb' & Ob').
    exists (HElement name (attrs_next wl level attrs) (newline o wl level) body' name []).
    split; [|split; [reflexivity|split; [|split]]].
    + inversion G; subst. constructor; auto using attrs_next_good, newline_blank, same_refl. intros b [].
    + cbn [render]. unfold start_tag, end_tag. rewrite attrs_next_render. change (flat_map render body') with (render_all body'). rewrite Rb'.
      rewrite !app_assoc_reverse. reflexivity.
    + rewrite view_element, attrs_next_plain. exact Vb'.
    + cbn [outline_of]. rewrite attrs_next_plain. unfold outlines in Ob'. rewrite Ob'. reflexivity.
  - assert (GA : good_attrs attrs) by (inversion G; auto). assert (Ux : Utf8 x) by (inversion G; auto).
    cbn [view_of out next]. set (wl := too_long o _). set (ww := wraps o level name (plain_attrs attrs) x).
    destruct (tw_leaf level ww x Ux) as [L1 L2].
    assert (X1 : Utf8 (leaf o level ww x ++ newline o ww level)) by (apply utf8_app; auto; apply newline_white).
    assert (X2 : text_words (leaf o level ww x ++ newline o ww level) = text_words x) by (rewrite tw_white_r; auto using newline_white).
    exists (HRaw name (attrs_next wl level attrs) (newline o wl level) (leaf o level ww x ++ newline o ww level) []).
    assert (OC : forall m, mark m -> ~ occurs m x -> ~ occurs m (leaf o level ww x ++ newline o ww level)).
    { intros m M N O. apply N. apply (tw_occurs m (leaf o level ww x ++ newline o ww level)); auto. }
    split; [|split; [reflexivity|split; [|split]]].
    + inversion G; subst.
      * constructor; auto using attrs_next_good, newline_blank; try (apply OC; [split; [discriminate|reflexivity]|auto]); [|intros b []].
        apply (attrs_next_type _ _ _ (fun n => ~ same U cs n (bs "type"))). auto.
      * constructor; auto using attrs_next_good, newline_blank; try (apply OC; [split; [discriminate|reflexivity]|auto]). intros b [].
    + cbn [render]. unfold start_tag, end_tag. rewrite attrs_next_render. rewrite !app_assoc_reverse. reflexivity.
    + cbn [view_of]. rewrite attrs_next_plain. reflexivity.
    + cbn [outline_of]. rewrite attrs_next_plain, X2. reflexivity.
  - assert (GA : good_attrs attrs) by (inversion G; auto). assert (GN : good_name U name) by (inversion G; auto).
    cbn [view_of out next]. set (wl := too_long o _).
    exists (HSelf name (attrs_next wl level attrs) (if wl then [LF] ++ get_indent o level else [SP])).
    split; [|split; [reflexivity|split; [|split]]].
    + constructor; auto using attrs_next_good.
      * destruct wl; [apply (newline_blank true)|intros b [<-|[]]; cbn; auto].
      * destruct wl; discriminate.
    + cbn [render]. unfold start_tag. rewrite attrs_next_render. destruct wl; rewrite ?app_assoc_reverse; reflexivity.
    + cbn [view_of]. rewrite attrs_next_plain. reflexivity.
    + cbn [outline_of]. rewrite attrs_next_plain. reflexivity.
  - assert (GA : good_attrs attrs) by (inversion G; auto). assert (GN : good_name U name) by (inversion G; auto).
    cbn [view_of out next]. set (wl := too_long o _).
    exists (HSelf name (attrs_next wl level attrs) (if wl then [LF] ++ get_indent o level else [SP])).
    split; [|split; [reflexivity|split; [|split]]].
    + constructor; auto using attrs_next_good.
      * destruct wl; [apply (newline_blank true)|intros b [<-|[]]; cbn; auto].
      * destruct wl; discriminate.
    + cbn [render]. unfold start_tag. rewrite attrs_next_render. destruct wl; rewrite ?app_assoc_reverse; reflexivity.
    + cbn [view_of]. rewrite attrs_next_plain. reflexivity.
    + cbn [outline_of]. rewrite attrs_next_plain. reflexivity.
Qed.
End Next.
End Tree.
