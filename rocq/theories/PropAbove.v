(** * C67: lines above do not change the answers *)
From Verif Require Import SelectionRange Base BaseFacts Stream Scanner ScannerFacts ScanStep ScanProps ScanShift ParseOrder
  Tree Parser ParseSpec ParseInv PropParse ParseShift Render RenderFacts PropRender PropRename FormatFacts PropLocal TextDoc PropDoc TagServices DataManager
  BuiltinData Entities Hover PropHoverDoc Completion PropComplete PropEdits PropTagComplete MoveFacts MoveComplete.
From Coq Require Import ZifyBool ZifyNat ZifyN.

Section Above.
Variables (U : unicode) (cs : bool) (void : list str) (l : list html) (m : nat) (d d' : textdoc) (roots roots' : list node).
Hypothesis HG : good_doc U cs void l.
Hypothesis HS : Utf8 (d_text d).
Hypothesis HB : below_lines m (render_all l) d d'.
Hypothesis HP : parse U (d_text d) cs void = Ok roots.
Hypothesis HP' : parse U (d_text d') cs void = Ok roots'.
Notation a := (render_all l).
Notation k := (length a).

Lemma above_utf8 : Utf8 a.
Proof.
  destruct HG as [G _]. clear HG HB. induction G; [apply u_nil|]. cbn [render_all flat_map]. apply u_app; auto. eapply render_utf8; eauto.
Qed.
Lemma above_roots : roots' = nodes_all 0 l ++ map (shift k) roots.
Proof. rewrite (bl_text _ _ _ _ HB), C65_rest, HP in HP' by auto. apply Ok_inj in HP'. auto. Qed.
Lemma above_front : Forall (fun n => n_start n < k /\ n_end n <= k) (nodes_all 0 l).
Proof.
  destruct (C12_spans _ _ _ _ _ above_utf8 (C21_round_trip _ _ _ _ HG)) as (C & _). apply Forall_forall. intros n I.
  apply (TreeFacts.chain_bounds _ _ _ _ C) in I. lia.
Qed.
Lemma above_at o : find_node_at roots' (k + o) = rmap (option_map (mv_at k)) (find_node_at roots o).
Proof. rewrite above_roots. apply find_at_moved, above_front. Qed.
Notation off := (offset_at d).
Lemma above_off p : offset_at d' (down m p) = k + off p.
Proof. apply HB. Qed.

Lemma above_range x c y : range_at d' (k + x + c) (k + x + c + y) = down_range m (range_at d (x + c) (x + c + y)).
Proof. rewrite <- (range_sh _ _ _ _ HB). f_equal; lia. Qed.

Definition down_edit {A} (x : range * A) : range * A := (down_range m (fst x), snd x).
Lemma above_rename p name : do_rename d' (down m p) name roots' = rmap (option_map (map down_edit)) (do_rename d p name roots).
Proof.
  unfold do_rename. rewrite above_off, above_at, bind_rmap, rmap_bind. apply bind_ext. intros [[n ps]|] _; [|reflexivity].
  cbn [option_map mv_at fst]. rewrite mv_tag. destruct (n_tag n) as [x|]; [|reflexivity].
  unfold is_within_tag_range, in_start_name, in_end_name, between. rewrite mv_ets, mv_start.
  replace (k + n_start n + 1 <=? k + off p) with (n_start n + 1 <=? off p) by lia.
  replace (k + off p <=? k + n_start n + 1 + length x) with (off p <=? n_start n + 1 + length x) by lia.
  rewrite above_range.
  destruct (n_ets n) as [e|]; cbn [option_map].
  - replace (k + e + 2 <=? k + off p) with (e + 2 <=? off p) by lia.
    replace (k + off p <=? k + e + 2 + length x) with (off p <=? e + 2 + length x) by lia.
    rewrite above_range. destruct (negb _); reflexivity.
  - destruct (negb _); reflexivity.
Qed.
Lemma above_linked p : find_linked_editing_ranges d' (down m p) roots' =
  rmap (option_map (map (down_range m))) (find_linked_editing_ranges d p roots).
Proof.
  unfold find_linked_editing_ranges. rewrite above_off, above_at, bind_rmap, rmap_bind. apply bind_ext. intros [[n ps]|] _; [|reflexivity].
  cbn [option_map mv_at fst]. rewrite mv_tag, mv_ets. set (len := match n_tag n with Some x => length x | None => 0 end). clearbody len.
  destruct (n_ets n) as [e|]; cbn [option_map]; [|reflexivity].
  unfold in_start_name, in_end_name, between. rewrite mv_start.
  replace (k + n_start n + 1 <=? k + off p) with (n_start n + 1 <=? off p) by lia.
  replace (k + off p <=? k + n_start n + 1 + len) with (off p <=? n_start n + 1 + len) by lia.
  replace (k + e + 2 <=? k + off p) with (e + 2 <=? off p) by lia.
  replace (k + off p <=? k + e + 2 + len) with (off p <=? e + 2 + len) by lia.
  rewrite !above_range. destruct (_ || _); reflexivity.
Qed.
Lemma above_matching p : find_matching_tag_position d' (down m p) roots' =
  rmap (option_map (down m)) (find_matching_tag_position d p roots).
Proof.
  unfold find_matching_tag_position. rewrite above_off, above_at, bind_rmap, rmap_bind. apply bind_ext. intros [[n ps]|] _; [|reflexivity].
  cbn [option_map mv_at fst]. rewrite mv_tag, mv_ets. destruct (n_tag n) as [x|]; [|reflexivity].
  destruct (n_ets n) as [e|]; cbn [option_map]; [|reflexivity].
  unfold in_start_name, in_end_name, between. rewrite mv_start.
  replace (k + n_start n + 1 <=? k + off p) with (n_start n + 1 <=? off p) by lia.
  replace (k + off p <=? k + n_start n + 1 + length x) with (off p <=? n_start n + 1 + length x) by lia.
  replace (k + e + 2 <=? k + off p) with (e + 2 <=? off p) by lia.
  replace (k + off p <=? k + e + 2 + length x) with (off p <=? e + 2 + length x) by lia.
  assert (X : forall i y z c, c <= off p -> y + c <= off p ->
    (do i1 <- usub (k + off p) c; do j <- usub i1 (k + y); Ok (Some (position_at d' (j + (k + z) + i)))) =
    rmap (option_map (down m)) (do i1 <- usub (off p) c; do j <- usub i1 y; Ok (Some (position_at d (j + z + i))))).
  { intros i y z c L1 L2. rewrite usub_sh, bind_rmap, rmap_bind by auto. apply bind_ext. intros i1 E.
    unfold usub in *. destruct (c <=? off p); [|discriminate]. apply Ok_inj in E. subst i1.
    replace (k + y <=? k + (off p - c)) with true by lia. replace (y <=? off p - c) with true by lia. cbn [bind rmap option_map].
    rewrite <- (bl_pos _ _ _ _ HB). do 3 f_equal. lia. }
  destruct ((n_start n + 1 <=? off p) && (off p <=? n_start n + 1 + length x)) eqn:B1; [apply X; lia|].
  destruct ((e + 2 <=? off p) && (off p <=? e + 2 + length x)) eqn:B2; [apply X; lia|reflexivity].
Qed.
Lemma above_highlights p : find_document_highlights U d' (down m p) roots' cs =
  rmap (map (down_range m)) (find_document_highlights U d p roots cs).
Proof.
  unfold find_document_highlights. rewrite above_off, above_at, bind_rmap, rmap_bind. apply bind_ext. intros [[n ps]|] _; [|reflexivity].
  cbn [option_map mv_at fst]. rewrite mv_tag. destruct (n_tag n) as [x|]; [|reflexivity].
  rewrite mv_start, (name_range_sh _ _ _ _ _ _ above_utf8 HS HB), bind_rmap, rmap_bind. apply bind_ext. intros r1 _.
  unfold is_self_closing. rewrite mv_ets.
  assert (C : forall r, opt_covers (option_map (down_range m) r) (down m p) = opt_covers r p) by (intros [r|]; [apply covers_sh|reflexivity]).
  assert (O : forall r, TagServices.opt_list (option_map (down_range m) r) = map (down_range m) (TagServices.opt_list r)) by (intros [r|]; reflexivity).
  assert (Z : forall r2, (if opt_covers (option_map (down_range m) r1) (down m p) || opt_covers (option_map (down_range m) r2) (down m p)
     then Ok (TagServices.opt_list (option_map (down_range m) r1) ++ TagServices.opt_list (option_map (down_range m) r2)) else Ok []) =
     rmap (map (down_range m)) (if opt_covers r1 p || opt_covers r2 p then Ok (TagServices.opt_list r1 ++ TagServices.opt_list r2) else Ok [])).
  { intros r2. rewrite !C, !O. destruct (_ || _); [|reflexivity]. cbn. rewrite map_app. reflexivity. }
  destruct (n_ets n) as [e|]; cbn [option_map].
  - cbn [Base.unwrap bind]. rewrite (name_range_sh _ _ _ _ _ _ above_utf8 HS HB), bind_rmap, rmap_bind. apply bind_ext. intros r2 _. apply Z.
  - cbn [bind]. apply (Z None).
Qed.

(** *** Symbols *)
Fixpoint down_symbol (x : symbol) : symbol :=
  mkSymbol (s_name x) (down_range m (s_range x)) (down_range m (s_selection x)) (map down_symbol (s_children x)).
Definition down_info (x : symbol_info) : symbol_info := mkInfo (i_name x) (down_range m (i_range x)) (i_container x).
Lemma node_name_mv n : node_to_name (shift k n) = node_to_name n.
Proof.
  unfold node_to_name. rewrite mv_tag, mv_attrs. destruct (n_tag n); [|reflexivity]. rewrite !attr_get_shift.
  destruct (n_attrs n) as [|x r]; [reflexivity|]. cbn [map]. set (at_ := x :: r). clearbody at_.
  destruct (attr_get (bs "id") at_), (attr_get (bs "class") at_); reflexivity.
Qed.
Lemma symbol_mv : forall n, node_symbol d' (shift k n) = down_symbol (node_symbol d n).
Proof.
  fix IH 1. intros n. pose proof (node_name_mv n) as NN. destruct n as [tag st en ch cl se es at_].
  cbn [shift n_tag n_start n_end n_children n_closed n_ste n_ets n_attrs] in *. cbn [node_symbol down_symbol s_name s_range s_selection s_children].
  f_equal; [exact NN|apply (range_sh _ _ _ _ HB)|apply (range_sh _ _ _ _ HB)|].
  clear NN. induction ch as [|c r IHr]; [reflexivity|]. cbn [map]. rewrite IH, IHr. reflexivity.
Qed.
Lemma above_symbols2 : find_document_symbols2 d' roots' =
  find_document_symbols2 d' (nodes_all 0 l) ++ map down_symbol (find_document_symbols2 d roots).
Proof.
  rewrite above_roots. unfold find_document_symbols2. rewrite map_app, !map_map. f_equal. apply map_ext, symbol_mv.
Qed.
Lemma walk_down : forall x parent, walk parent (down_symbol x) = map down_info (walk parent x).
Proof.
  fix IH 1. intros [nm r sel ch] parent. cbn. f_equal. induction ch as [|c q IHq]; [reflexivity|]. cbn. rewrite IH, IHq, map_app. reflexivity.
Qed.
Lemma above_symbols : find_document_symbols d' roots' =
  find_document_symbols d' (nodes_all 0 l) ++ map down_info (find_document_symbols d roots).
Proof.
  unfold find_document_symbols. rewrite above_symbols2, flat_map_app. f_equal. induction (find_document_symbols2 d roots) as [|x r IH]; [reflexivity|].
  cbn [map flat_map]. rewrite walk_down, IH, map_app. reflexivity.
Qed.

(** *** Hover *)
Definition down_hover (h : hover) : hover := mkHover (h_contents h) (option_map (down_range m) (h_range h)).
(** A participant that answers the same a few lines further down. *)
Definition hover_follows (q q' : hover_participant) : Prop :=
  (forall tag attr v r, hp_value q' tag attr v (down_range m r) = option_map down_hover (hp_value q tag attr v r)) /\
  hp_content q' = option_map down_hover (hp_content q).
Lemma Forall2_impl {A B} (P Q : A -> B -> Prop) ls ls' : (forall x y, P x y -> Q x y) -> Forall2 P ls ls' -> Forall2 Q ls ls'.
Proof. intros H. induction 1; constructor; auto. Qed.
Lemma first_some_map {A B C} (g : B -> C) (f : A -> option B) (f' : A -> option C) ls : (forall x, f' x = option_map g (f x)) ->
  first_some f' ls = option_map g (first_some f ls).
Proof. intros H. induction ls as [|x r IH]; cbn [first_some]; [reflexivity|]. rewrite H. destruct (f x); [reflexivity|exact IH]. Qed.
Lemma first_some_map2 {A A' B C} (g : B -> C) (f : A -> option B) (f' : A' -> option C) ls ls' :
  Forall2 (fun x x' => f' x' = option_map g (f x)) ls ls' -> first_some f' ls' = option_map g (first_some f ls).
Proof. induction 1 as [|x x' r r' E _ IH]; cbn [first_some]; [reflexivity|]. rewrite E. destruct (f x); [reflexivity|exact IH]. Qed.
Lemma fold_map {A B C} (g : B -> C) (f : option B -> A -> option B) (f' : option C -> A -> option C) ls :
  (forall h x, f' (option_map g h) x = option_map g (f h x)) -> forall h, fold_left f' ls (option_map g h) = option_map g (fold_left f ls h).
Proof. intros H. induction ls as [|x r IH]; intros h; cbn [fold_left]; [reflexivity|]. rewrite H. apply IH. Qed.

Section Hovering.
Variables (md : bool) (parts parts' : list hover_participant) (providers : list provider) (lang : str)
  (ents : list (str * list N)) (opts : hover_settings).
Hypothesis HF : Forall2 hover_follows parts parts'.
Lemma tag_hover_down x r : get_tag_hover U cs md providers lang opts x (down_range m r) =
  option_map down_hover (get_tag_hover U cs md providers lang opts x r).
Proof.
  unfold get_tag_hover. apply first_some_map. intros q. refine (fold_map down_hover _ _ _ _ None).
  intros h td. destruct (same_tag U cs (t_name td) x); reflexivity.
Qed.
Lemma content_hover_down r c : content_hover md (down_range m r) c = option_map down_hover (content_hover md r c).
Proof. destruct c; reflexivity. Qed.
Lemma attr_hover_down tag x r : get_attr_hover md providers lang opts tag x (down_range m r) =
  option_map down_hover (get_attr_hover md providers lang opts tag x r).
Proof.
  unfold get_attr_hover. apply first_some_map. intros q. refine (fold_map down_hover _ _ _ _ None).
  intros h b. destruct (_ && _); [apply content_hover_down|reflexivity].
Qed.
Lemma value_hover_down tag attr v r : get_attr_value_hover md parts' providers lang opts tag attr v (down_range m r) =
  option_map down_hover (get_attr_value_hover md parts providers lang opts tag attr v r).
Proof.
  unfold get_attr_value_hover.
  rewrite (first_some_map2 down_hover (fun q => hp_value q tag attr v r) _ parts).
  2:{ eapply Forall2_impl; [|exact HF]. intros q q' [X _]. apply X. }
  destruct (first_some (fun q => hp_value q tag attr v r) parts) as [h|]; [reflexivity|]. cbn [option_map].
  apply first_some_map. intros q. apply first_some_map. intros x. destruct (_ && _); [apply content_hover_down|reflexivity].
Qed.
Hypothesis HW : whole_lines a.
Lemma entity_hover_down r o : alnum_left (d_text d) o <> 0 -> get_entity_hover d' md ents (down_range m r) (k + o) =
  rmap (option_map down_hover) (get_entity_hover d md ents r o).
Proof.
  intros NZ. unfold get_entity_hover. rewrite (filter_entity_sh _ _ _ _ above_utf8 HB HW) by auto. rewrite rmap_bind. apply bind_ext. intros cur _.
  cbn [rmap bind]. f_equal. apply first_some_map. intros e. destruct (beq _ _); reflexivity.
Qed.
Lemma above_hover p : do_hover U d' cs md parts' providers lang ents opts (down m p) roots' =
  rmap (option_map down_hover) (do_hover U d cs md parts providers lang ents opts p roots).
Proof.
  unfold do_hover. rewrite above_off, above_at, bind_rmap, rmap_bind. apply bind_ext. intros [[n ps]|] _; [|reflexivity].
  cbn [option_map mv_at fst]. rewrite mv_tag, mv_ets. destruct (n_tag n) as [tag|]; [|reflexivity].
  pose proof above_utf8 as HA.
  assert (X : match option_map (Nat.add k) (n_ets n) with Some e => if e <=? k + off p then Some e else None | None => None end =
    option_map (Nat.add k) (match n_ets n with Some e => if e <=? off p then Some e else None | None => None end)).
  { destruct (n_ets n) as [e|]; [|reflexivity]. cbn [option_map]. replace (k + e <=? k + off p) with (e <=? off p) by lia. destruct (e <=? off p); reflexivity. }
  rewrite X. clear X. destruct (match n_ets n with Some e => if e <=? off p then Some e else None | None => None end) as [e|]; cbn [option_map].
  { rewrite (hover_range_sh _ _ _ _ _ _ HA HS HB), bind_rmap, rmap_bind. apply bind_ext. intros [r|] _; [|reflexivity]. cbn [option_map rmap bind].
    rewrite tag_hover_down. reflexivity. }
  rewrite mv_start. rewrite (hover_range_sh _ _ _ _ _ _ HA HS HB), bind_rmap, rmap_bind. apply bind_ext. intros [r|] _; cbn [option_map].
  { cbn [rmap bind]. rewrite tag_hover_down. reflexivity. }
  rewrite (hover_range_sh _ _ _ _ _ _ HA HS HB), bind_rmap, rmap_bind. apply bind_ext. intros [r|] _; cbn [option_map].
  { rewrite (content_of_sh _ _ _ _ HA HS HB), rmap_bind. apply bind_ext. intros x _. cbn [rmap bind]. rewrite attr_hover_down. reflexivity. }
  rewrite (entity_range_sh _ _ _ _ HA HB HW), bind_rmap, rmap_bind. apply bind_ext. intros [r|] E; cbn [option_map].
  { apply entity_hover_down. eapply entity_found; eauto. }
  rewrite (hover_range_sh _ _ _ _ _ _ HA HS HB), bind_rmap, rmap_bind. apply bind_ext. intros [r|] _; cbn [option_map].
  2:{ cbn [bind rmap]. f_equal. apply first_some_map2. eapply Forall2_impl; [|exact HF]. intros q q' [_ Y]. exact Y. }
  rewrite (content_of_sh _ _ _ _ HA HS HB).
  destruct (get_content d r) as [v| |]; cbn [bind rmap]; try reflexivity.
  cbn [down_range r_start]. rewrite above_off, (scan_attr_sh _ _ _ _ _ _ HA HS HB).
  destruct (scan_attr_and_attr_value U d cs (n_start n) (off (r_start r))) as [[x|]| |]; cbn [bind rmap]; try reflexivity.
  - rewrite value_hover_down. reflexivity.
  - f_equal. apply first_some_map2. eapply Forall2_impl; [|exact HF]. intros q q' [_ Y]. exact Y.
Qed.
End Hovering.
End Above.

(** ** What stands above *)
(** Well-formed markup [l] above the document [d] makes the document [d'], where the
    places of [d] are [m] lines further down. *)
Record markup_above (U : unicode) (cs : bool) (void : list str) (l : list html) (m : nat) (d d' : textdoc) (roots roots' : list node) : Prop := {
  ma_good : good_doc U cs void l;
  ma_doc : textdoc_ok d;
  ma_below : below_lines m (render_all l) d d';
  ma_parse : parse U (d_text d) cs void = Ok roots;
  ma_parse' : parse U (d_text d') cs void = Ok roots'
}.

(** The documents with LSP positions: whole lines of text put above move every place
    down by the number of these lines. *)
Lemma pos_walk_app c1 : forall c2 o p, pos_walk (c1 ++ c2) (length (encode c1) + o) p = pos_walk c2 o (pos_after c1 c2 p).
Proof.
  induction c1 as [|c c1 IH]; intros c2 o p; cbn [app pos_after]; [reflexivity|]. cbn [pos_walk]. rewrite encode_cons, app_length.
  replace (length (encode1 c) + length (encode c1) + o <? length (encode1 c)) with false by lia.
  replace (length (encode1 c) + length (encode c1) + o - length (encode1 c)) with (length (encode c1) + o) by lia. apply IH.
Qed.
Lemma next_pos_down m p c r : next_pos (down m p) c r = down m (next_pos p c r).
Proof. unfold next_pos, down. destruct (ends_line c r); cbn; f_equal; lia. Qed.
Lemma pos_walk_down m : forall c o p, pos_walk c o (down m p) = down m (pos_walk c o p).
Proof. induction c as [|x c IH]; intros o p; cbn [pos_walk]; [reflexivity|]. destruct (o <? _); [reflexivity|]. rewrite next_pos_down. apply IH. Qed.
Lemma off_walk_app c1 : forall c2 q p acc, pos_le (pos_after c1 c2 p) q ->
  off_walk (c1 ++ c2) q p acc = off_walk c2 q (pos_after c1 c2 p) (acc + length (encode c1)).
Proof.
  induction c1 as [|c c1 IH]; intros c2 q p acc L; [cbn [app pos_after encode flat_map length]; rewrite Nat.add_0_r; reflexivity|].
  cbn [app off_walk]. assert (X : pos_lt p q).
  { pose proof (pos_after_lt c c1 c2 p) as X. destruct L as [<-|L]; auto. eapply pos_lt_trans; eauto. }
  apply pos_ltb_lt in X. rewrite X. cbn [pos_after]. rewrite IH by exact L. rewrite encode_cons, app_length. f_equal. lia.
Qed.
Lemma off_walk_down m n : forall c q p acc, off_walk c (down m q) (down m p) (n + acc) = n + off_walk c q p acc.
Proof.
  induction c as [|x c IH]; intros q p acc; cbn [off_walk]; [reflexivity|].
  replace (pos_ltb (down m p) (down m q)) with (pos_ltb p q).
  - destruct (pos_ltb p q); [|reflexivity]. rewrite next_pos_down, <- IH. f_equal. lia.
  - unfold pos_ltb, down. cbn -[Nat.ltb Nat.eqb]. replace (m + line p <? m + line q) with (line p <? line q) by lia. replace (m + line p =? m + line q) with (line p =? line q) by lia. reflexivity.
Qed.
Lemma pos_after_lines b : forall c2 p, pos_after (b ++ [10%N]) c2 p = mkPos (line (pos_after (b ++ [10%N]) [] p)) 0.
Proof.
  induction b as [|c b IH]; intros c2 p; [reflexivity|]. cbn [app pos_after].
  replace (next_pos p c ((b ++ [10%N]) ++ [])) with (next_pos p c ((b ++ [10%N]) ++ c2)); [apply IH|].
  unfold next_pos, ends_line. destruct b; reflexivity.
Qed.
Theorem C67_lines : forall a s, Utf8 a -> Utf8 s -> whole_lines a ->
  below_lines (line (position_at (utf16_doc a) (length a))) a (utf16_doc s) (utf16_doc (a ++ s)).
Proof.
  intros a s HA (c2 & S2 & ->) W. assert (E : exists c1, forallb scalar c1 = true /\ a = encode c1 /\ (c1 = [] \/ exists b, c1 = b ++ [10%N])).
  { destruct W as [-> |(b & ->)]; [exists []; auto|]. assert (UB : Utf8 b) by (apply (utf8_split_at b 10 [] eq_refl) in HA; apply HA).
    destruct UB as (cb & SB & ->). exists (cb ++ [10%N]). rewrite forallb_app, SB, encode_app. repeat split; eauto. }
  destruct E as (c1 & S1 & -> & E). assert (D : decode (encode c1 ++ encode c2) = c1 ++ c2).
  { rewrite <- encode_app. apply decode_encode. rewrite forallb_app, S1, S2. reflexivity. }
  assert (P : pos_after c1 c2 (mkPos 0 0) = down (line (position_at (utf16_doc (encode c1)) (length (encode c1)))) (mkPos 0 0)).
  { cbn [utf16_doc position_at]. rewrite decode_encode by auto. pose proof (pos_walk_app c1 [] 0 (mkPos 0 0)) as Q. rewrite app_nil_r, Nat.add_0_r in Q. rewrite Q. cbn [pos_walk].
    destruct E as [-> |(b & ->)]; [reflexivity|]. rewrite pos_after_lines. unfold down. cbn [line character]. f_equal. lia. }
  set (m := line (position_at (utf16_doc (encode c1)) (length (encode c1)))) in *. clearbody m.
  constructor.
  - reflexivity.
  - intros o. cbn [utf16_doc position_at]. rewrite D, pos_walk_app, P, pos_walk_down, decode_encode by auto. reflexivity.
  - intros p. cbn [utf16_doc offset_at]. rewrite D, off_walk_app.
    + rewrite P, decode_encode by auto. replace (0 + length (encode c1)) with (length (encode c1) + 0) by lia. apply off_walk_down.
    + rewrite P. unfold pos_le, pos_lt, down. destruct p as [pl pc]. cbn. destruct pl; [destruct pc; [left; reflexivity|right; lia]|right; lia].
Qed.
Print Assumptions C67_lines.

(** ** The answers *)
Theorem C67_rename : forall U cs void l m d d' roots roots' p name, markup_above U cs void l m d d' roots roots' ->
  do_rename d' (down m p) name roots' = rmap (option_map (map (down_edit m))) (do_rename d p name roots).
Proof. intros * [G D B P P']. eapply above_rename; eauto using do_utf8. Qed.
Print Assumptions C67_rename.
Theorem C67_linked_editing : forall U cs void l m d d' roots roots' p, markup_above U cs void l m d d' roots roots' ->
  find_linked_editing_ranges d' (down m p) roots' = rmap (option_map (map (down_range m))) (find_linked_editing_ranges d p roots).
Proof. intros * [G D B P P']. eapply above_linked; eauto using do_utf8. Qed.
Print Assumptions C67_linked_editing.
Theorem C67_matching_tag : forall U cs void l m d d' roots roots' p, markup_above U cs void l m d d' roots roots' ->
  find_matching_tag_position d' (down m p) roots' = rmap (option_map (down m)) (find_matching_tag_position d p roots).
Proof. intros * [G D B P P']. eapply above_matching; eauto using do_utf8. Qed.
Print Assumptions C67_matching_tag.
Theorem C67_highlights : forall U cs void l m d d' roots roots' p, markup_above U cs void l m d d' roots roots' ->
  find_document_highlights U d' (down m p) roots' cs = rmap (map (down_range m)) (find_document_highlights U d p roots cs).
Proof. intros * [G D B P P']. eapply above_highlights; eauto using do_utf8. Qed.
Print Assumptions C67_highlights.
(** The symbols of the markup above come first. *)
Theorem C67_symbols : forall U cs void l m d d' roots roots', markup_above U cs void l m d d' roots roots' ->
  find_document_symbols d' roots' = find_document_symbols d' (nodes_all 0 l) ++ map (down_info m) (find_document_symbols d roots) /\
  find_document_symbols2 d' roots' = find_document_symbols2 d' (nodes_all 0 l) ++ map (down_symbol m) (find_document_symbols2 d roots).
Proof. intros * [G D B P P']. split; [eapply above_symbols|eapply above_symbols2]; eauto using do_utf8. Qed.
Print Assumptions C67_symbols.
Theorem C67_hover : forall U cs void l m d d' roots roots' md parts parts' providers lang ents opts p, markup_above U cs void l m d d' roots roots' ->
  whole_lines (render_all l) -> Forall2 (hover_follows m) parts parts' ->
  do_hover U d' cs md parts' providers lang ents opts (down m p) roots' =
  rmap (option_map (down_hover m)) (do_hover U d cs md parts providers lang ents opts p roots).
Proof. intros * [G D B P P'] W F. eapply above_hover; eauto using do_utf8. Qed.
Print Assumptions C67_hover.

(** The three kinds of completion, behind the start of the first element of [d]. *)
Definition has_data (roots : list node) : Prop :=
  exists n x, In n (doc_nodes roots) /\ In x (map fst (n_attrs n)) /\ is_prefix (bs "data-") x = true.
Lemma names_nodes : forall n x, In x (all_attr_names n) -> exists y, In y (preorder n) /\ In x (map fst (n_attrs y)).
Proof.
  fix IH 1. intros [tag st en ch cl se es at_] x. cbn [all_attr_names preorder n_attrs]. intros I. apply in_app_or in I as [I|I].
  - eexists. split; [left; reflexivity|]. exact I.
  - assert (X : exists y, In y (flat_map preorder ch) /\ In x (map fst (n_attrs y))).
    { clear - IH I. induction ch as [|c r IHr]; [contradiction|]. cbn [flat_map] in *. apply in_app_or in I as [I|I].
      - destruct (IH c x I) as (y & Y1 & Y2). exists y. split; auto. apply in_or_app. auto.
      - destruct (IHr I) as (y & Y1 & Y2). exists y. split; auto. apply in_or_app. auto. }
    destruct X as (y & Y1 & Y2). exists y. split; auto. right. exact Y1.
Qed.
Lemma no_data_names roots : ~ has_data roots -> Forall (fun x => is_prefix (bs "data-") x = false) (flat_map all_attr_names roots).
Proof.
  intros H. apply Forall_forall. intros x I. destruct (is_prefix (bs "data-") x) eqn:E; [|reflexivity]. exfalso. apply H.
  apply in_flat_map in I as (n & N1 & N2). apply names_nodes in N2 as (y & Y1 & Y2). exists y, x. split; auto. apply in_flat_map. eauto.
Qed.
Section Completing.
Variables (U : unicode) (cs : bool) (void : list str) (l : list html) (m : nat) (d d' : textdoc) (roots roots' : list node) (p : position).
Hypothesis H : markup_above U cs void l m d d' roots roots'.
Hypothesis HX : exists n, In n (doc_nodes roots) /\ n_start n < offset_at d p.
Lemma behind_first : exists x ps, find_node_before roots (offset_at d p) = Ok (Some (x, ps)) /\ n_start x < offset_at d p.
Proof.
  destruct H as [G D B P P']. destruct HX as (n & N1 & N2). destruct (found_total U d cs void roots D P (offset_at d p)) as ([[x ps]|] & F).
  - exists x, ps. split; auto. destruct (slash_in U d cs void roots D P _ _ _ x F (or_introl eq_refl)) as (_ & Q & _). exact Q.
  - apply (found_none U d cs void roots D P _ F) in N1. lia.
Qed.
End Completing.
Theorem C67_completion : forall U cs void l m d d' roots roots' md parts parts' providers lang ents settings order p, markup_above U cs void l m d d' roots roots' ->
  whole_lines (render_all l) -> Forall2 (completion_follows m) parts parts' ->
  (exists n, In n (doc_nodes roots) /\ n_start n < offset_at d p) -> (m = 0 \/ line p <> 0) -> ~ has_data (nodes_all 0 l) ->
  do_complete U d' cs md parts' providers lang ents settings order roots' (down m p) =
  rmap (map (down_item m)) (do_complete U d cs md parts providers lang ents settings order roots p).
Proof.
  intros * H W F X L ND. destruct (behind_first _ _ _ _ _ _ _ _ _ _ H X) as (x & ps & FX & LX). destruct H as [G D B P P']. pose proof (do_utf8 _ D) as HS.
  rewrite (above_roots _ _ _ _ _ _ _ _ _ G HS B P P'). eapply complete_sh; eauto using above_utf8, no_data_names.
  eapply above_front; eauto.
Qed.
Print Assumptions C67_completion.
Theorem C67_quote_completion : forall U cs void l m d d' roots roots' settings p, markup_above U cs void l m d d' roots roots' ->
  (exists n, In n (doc_nodes roots) /\ n_start n < offset_at d p) ->
  do_quote_complete U d' cs settings roots' (down m p) = do_quote_complete U d cs settings roots p.
Proof.
  intros * H X. destruct (behind_first _ _ _ _ _ _ _ _ _ _ H X) as (x & ps & FX & LX). destruct H as [G D B P P']. pose proof (do_utf8 _ D) as HS.
  rewrite (above_roots _ _ _ _ _ _ _ _ _ G HS B P P'). eapply (quote_sh U cs m _ d d' (above_utf8 _ _ _ _ G) D B [] settings (fun x => x)); eauto.
  eapply above_front; eauto.
Qed.
Print Assumptions C67_quote_completion.
Theorem C67_tag_completion : forall U cs void l m d d' roots roots' providers lang p, markup_above U cs void l m d d' roots roots' ->
  (exists n, In n (doc_nodes roots) /\ n_start n < offset_at d p) ->
  do_tag_complete U d' cs providers lang roots' (down m p) = do_tag_complete U d cs providers lang roots p.
Proof.
  intros * H X. destruct (behind_first _ _ _ _ _ _ _ _ _ _ H X) as (x & ps & FX & LX). destruct H as [G D B P P']. pose proof (do_utf8 _ D) as HS.
  rewrite (above_roots _ _ _ _ _ _ _ _ _ G HS B P P'). eapply (tag_complete_sh U cs m _ d d' (above_utf8 _ _ _ _ G) D B providers lang [] (fun x => x)); eauto.
  eapply above_front; eauto.
Qed.
Print Assumptions C67_tag_completion.

(** Every markup that ends with a line feed, above every text that can be parsed. *)
Theorem C67_reached : forall U cs void l s roots, good_doc U cs void l -> Utf8 s -> whole_lines (render_all l) -> parse U s cs void = Ok roots ->
  exists roots', markup_above U cs void l (line (position_at (utf16_doc (render_all l)) (length (render_all l))))
    (utf16_doc s) (utf16_doc (render_all l ++ s)) roots roots'.
Proof.
  intros U cs void l s roots G S W P. pose proof (above_utf8 _ _ _ _ G) as HA. pose proof (C65_rest U cs void l s G S) as R. rewrite P in R.
  eexists. constructor; eauto; [apply C27_contract; auto|apply C67_lines; auto].
Qed.
Print Assumptions C67_reached.

(** ** Examples *)
Definition lf : str := [10%N].
Definition top_text : list html := [HText lf].
Definition top_mark : list html := [HElement (bs "div") [mkHAttr (bs " ") (bs "class") (Bare [] (bs "x"))] [] [HText (bs "é")] (bs "div") []; HText (lf ++ lf)].
Definition top_data : list html := [HElement (bs "div") [mkHAttr (bs " ") (bs "data-x") NoValue] [] [] (bs "div") []; HText lf].
Lemma not_void n : is_void_element n html5_void = false -> ~ In n html5_void.
Proof.
  intros H I. unfold is_void_element in H. rewrite <- not_true_iff_false in H. apply H. apply existsb_exists. exists n. split; auto. apply beq_refl.
Qed.
Lemma lf_text x : x = lf \/ x = lf ++ lf -> good_text x.
Proof. intros [->| ->]; (split; [discriminate|split; [apply ascii_utf8; reflexivity|cbn; intuition discriminate]]). Qed.
Lemma top_text_good : good_doc demo_unicode false html5_void top_text.
Proof. split; [repeat constructor; apply lf_text; auto|exact I]. Qed.
Lemma top_mark_good : good_doc demo_unicode false html5_void top_mark.
Proof.
  split; [|cbn; auto]. apply Forall_cons; [|apply Forall_cons; [apply G_text, lf_text; auto|apply Forall_nil]].
  apply G_element; try name; try blanks; [intros [H|H]; discriminate|apply not_void; reflexivity| | | |reflexivity].
  - attrs_tac; attr_tac; cbn [good_value ha_value]. split; [blanks|]. split; [discriminate|].
    apply made_of_ascii with (g := val_char); [|reflexivity]. intros c H. unfold bare_char, val_char in *. destruct (is_uspace c); [discriminate|]. split; auto. cbn. lia.
  - apply Forall_cons; [|apply Forall_nil]. apply G_text. split; [discriminate|]. split; [exists [233%N]; split; reflexivity|cbn; intuition discriminate].
  - exact I.
Qed.
Lemma top_data_good : good_doc demo_unicode false html5_void top_data.
Proof.
  split; [|cbn; auto]. apply Forall_cons; [|apply Forall_cons; [apply G_text, lf_text; auto|apply Forall_nil]].
  apply G_element; try name; try blanks; [intros [H|H]; discriminate|apply not_void; reflexivity| |constructor|exact I|reflexivity].
  attrs_tac; attr_tac; exact I.
Qed.

(** A page with an open tag being typed, under a paragraph. *)
Definition page : str := bs "<main>" ++ lf ++ bs "<inp></main><b".
Definition complete_in (s : str) (p : position) (roots : list node) : res (list item) :=
  do_complete demo_unicode (utf16_doc s) false true [] [edits_provider] (bs "html") entities None (fun m => m) roots p.
Example C67_demo :
  exists roots roots', markup_above demo_unicode false html5_void top_mark 2 (utf16_doc page) (utf16_doc (render_all top_mark ++ page)) roots roots' /\
  whole_lines (render_all top_mark) /\ (exists n, In n (doc_nodes roots) /\ n_start n < offset_at (utf16_doc page) (mkPos 1 4)) /\
  ~ has_data (nodes_all 0 top_mark) /\
  rmap (map (fun i => (ci_label i, ci_edit i))) (complete_in (render_all top_mark ++ page) (mkPos 3 4) roots') =
    Ok [(bs "p", Some (mkRange (mkPos 3 1) (mkPos 3 4), bs "p")); (bs "input", Some (mkRange (mkPos 3 1) (mkPos 3 4), bs "input"))] /\
  find_linked_editing_ranges (utf16_doc (render_all top_mark ++ page)) (mkPos 2 3) roots' =
    Ok (Some [mkRange (mkPos 2 1) (mkPos 2 5); mkRange (mkPos 3 7) (mkPos 3 11)]).
Proof.
  destruct (parse demo_unicode page false html5_void) as [roots| |] eqn:P; [|vm_compute in P; discriminate|vm_compute in P; discriminate].
  exists roots. assert (W : whole_lines (render_all top_mark)) by (right; exists (removelast (render_all top_mark)); reflexivity).
  destruct (C67_reached _ _ _ _ page roots top_mark_good ltac:(apply ascii_utf8; reflexivity) W P) as (roots' & M).
  exists roots'. split; [exact M|]. split; [exact W|]. pose proof (ma_parse' _ _ _ _ _ _ _ _ _ M) as P'. cbn [d_text utf16_doc] in P'.
  vm_compute in P, P'. apply Ok_inj in P, P'. clear M. subst roots roots'.
  split; [eexists; split; [left; reflexivity|vm_compute; lia]|].
  split; [intros (n & x & N1 & N2 & N3); vm_compute in N1; destruct N1 as [<-|[]]; vm_compute in N2; destruct N2 as [<-|[]]; discriminate N3|].
  split; vm_compute; reflexivity.
Qed.

(** The three conditions on completion. In the first line the doctype is offered, *)
Local Ltac refute G s :=
  match goal with |- exists roots roots', markup_above ?U ?cs ?void ?l _ _ _ _ _ /\ _ =>
    destruct (parse U s cs void) as [roots| |] eqn:P; [|vm_compute in P; discriminate|vm_compute in P; discriminate];
    assert (W : whole_lines (render_all l)) by (right; exists (removelast (render_all l)); reflexivity);
    destruct (C67_reached _ _ _ _ s roots G ltac:(apply ascii_utf8; reflexivity) W P) as (roots' & M);
    exists roots, roots'; split; [exact M|]; pose proof (ma_parse' _ _ _ _ _ _ _ _ _ M) as P'; cbn [d_text utf16_doc] in P';
    vm_compute in P, P'; apply Ok_inj in P, P'; clear M; subst roots roots'
  end.
Definition line_start : str := bs "<p></p><".
Theorem C67_first_line_refuted : exists roots roots',
  markup_above demo_unicode false html5_void top_text 1 (utf16_doc line_start) (utf16_doc (render_all top_text ++ line_start)) roots roots' /\
  (exists n, In n (doc_nodes roots) /\ n_start n < offset_at (utf16_doc line_start) (mkPos 0 8)) /\ ~ has_data (nodes_all 0 top_text) /\
  complete_in (render_all top_text ++ line_start) (mkPos 1 8) roots' <> rmap (map (down_item 1)) (complete_in line_start (mkPos 0 8) roots).
Proof.
  refute top_text_good line_start.
  split; [eexists; split; [left; reflexivity|vm_compute; lia]|]. split; [intros (n & x & N1 & _); vm_compute in N1; exact N1|].
  intros E. apply (f_equal (rmap (@length item))) in E. vm_compute in E. discriminate.
Qed.
Print Assumptions C67_first_line_refuted.
(** the data attributes of the whole document are offered, *)
Definition data_page : str := lf ++ bs "<p ></p>".
Theorem C67_data_attributes_refuted : exists roots roots',
  markup_above demo_unicode false html5_void top_data 1 (utf16_doc data_page) (utf16_doc (render_all top_data ++ data_page)) roots roots' /\
  (exists n, In n (doc_nodes roots) /\ n_start n < offset_at (utf16_doc data_page) (mkPos 1 3)) /\
  complete_in (render_all top_data ++ data_page) (mkPos 2 3) roots' <> rmap (map (down_item 1)) (complete_in data_page (mkPos 1 3) roots).
Proof.
  refute top_data_good data_page.
  split; [eexists; split; [left; reflexivity|vm_compute; lia]|].
  intros E. apply (f_equal (rmap (@length item))) in E. vm_compute in E. discriminate.
Qed.
Print Assumptions C67_data_attributes_refuted.
(** and in front of the first element nothing at all is offered. *)
Definition text_page : str := bs "x" ++ lf ++ bs "&am".
Theorem C67_leading_text_refuted : exists roots roots',
  markup_above demo_unicode false html5_void top_mark 2 (utf16_doc text_page) (utf16_doc (render_all top_mark ++ text_page)) roots roots' /\
  complete_in text_page (mkPos 1 3) roots = Ok [] /\ exists i items, complete_in (render_all top_mark ++ text_page) (mkPos 3 3) roots' = Ok (i :: items).
Proof.
  refute top_mark_good text_page. split; [vm_compute; reflexivity|].
  match goal with |- exists i items, ?x = _ => destruct x as [[|i items]| |] eqn:E end; eauto; vm_compute in E; discriminate.
Qed.
Print Assumptions C67_leading_text_refuted.
