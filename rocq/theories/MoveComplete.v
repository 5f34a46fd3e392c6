(** * Completion below more lines *)
From Verif Require Import SelectionRange SelAttr Base BaseFacts Stream Scanner ScannerFacts ScanStep ScanProps ScanShift
  Tree Parser ParseSpec ParseShift TextDoc TagServices DataManager Entities Hover PropHoverDoc Completion PropComplete PropEdits PropAnswers MoveFacts.
From Coq Require Import ZifyBool ZifyNat ZifyN.

Section C.
Variables (U : unicode) (cs : bool) (m : nat) (a : str) (d d' : textdoc).
Hypothesis HA : Utf8 a.
Hypothesis HD : textdoc_ok d.
Hypothesis HB : below_lines m a d d'.
Hypothesis HW : whole_lines a.
Notation s := (d_text d).
Notation t := (d_text d').
Notation k := (length a).
Notation mv := (shift k).
Let HS : Utf8 s := do_utf8 d HD.

Lemma get1_sh i : get1 t (k + i) = get1 s i.
Proof. unfold get1. rewrite (nth_moved m a d d' HB). reflexivity. Qed.
Lemma get1_seam j : k = Datatypes.S j -> get1 t j = Some 10%N.
Proof. intros E. unfold get1. pose proof (before_seam m a d d' HA HB HW ltac:(lia)) as B. replace (k - 1) with j in B by lia. rewrite B. reflexivity. Qed.
Lemma slice_moved i j : slice t (k + i) (k + j) = slice s i j.
Proof. rewrite (text_eq m a d d' HB). apply slice_sh; auto. Qed.
Notation step_sh := (step_sh U cs m a d d' HA HS HB).
Notation new_sh := (new_sh U cs m a d d' HA HS HB).
Notation text_sh := (text_sh m a d d' HA HS HB).

(** ** Loops *)
Lemma quote_loop_sh o v : 1 <= o -> forall f f' sc, tok sc = EOS \/ measure s sc + 1 < f -> 1 <= f -> f <= f' ->
  quote_loop U d' cs f' (k + o) v (sh a sc) = quote_loop U d cs f o v sc.
Proof.
  intros LO. induction f as [|f IH]; intros f' sc M L1 L2; [lia|]. destruct f' as [|f']; [lia|]. cbn [quote_loop]. cbn [sh tok pos]. fold (sh a sc).
  replace (k + pos sc <=? k + o) with (pos sc <=? o) by lia. replace (k + pos sc =? k + o - 1) with (pos sc =? o - 1) by lia.
  destruct (token_eqb (tok sc) EOS) eqn:T; [reflexivity|]. apply token_eqb_neq in T. destruct M as [M|M]; [congruence|].
  cbn [negb andb]. destruct (pos sc <=? o); [|reflexivity]. rewrite step_sh, !bind_rmap. destruct (_ && _).
  - apply bind_ext. intros s1 _. cbn [sh tok]. fold (sh a s1). destruct (negb _); [reflexivity|]. rewrite step_sh, bind_rmap. reflexivity.
  - apply bind_ext. intros sc' S. pose proof (eof_or U cs d HS _ _ _ f S ltac:(lia)). apply IH; auto; lia.
Qed.
Lemma ends_loop_sh ty o : forall f f' sc, tok sc = EOS \/ measure s sc + 1 < f -> 1 <= f -> f <= f' ->
  ends_at_loop U d' cs f' ty (k + o) (sh a sc) = ends_at_loop U d cs f ty o sc.
Proof.
  induction f as [|f IH]; intros f' sc M L1 L2; [lia|]. destruct f' as [|f']; [lia|]. cbn [ends_at_loop]. cbn [sh tok pos]. fold (sh a sc).
  replace (k + pos sc <=? k + o) with (pos sc <=? o) by lia. replace (k + pos sc =? k + o) with (pos sc =? o) by lia.
  destruct (token_eqb (tok sc) EOS) eqn:T; [reflexivity|]. apply token_eqb_neq in T. destruct M as [M|M]; [congruence|].
  cbn [negb andb]. destruct (pos sc <=? o); [|reflexivity]. destruct (_ && _); [reflexivity|]. rewrite step_sh, bind_rmap.
  apply bind_ext. intros sc' S. pose proof (eof_or U cs d HS _ _ _ f S ltac:(lia)). apply IH; auto; lia.
Qed.
Lemma first_fuel emit i q sc : scan U s emit cs (scanner_new i q) = Ok sc -> tok sc = EOS \/ measure s sc + 1 < scan_fuel s.
Proof. intros S. eapply eof_or; eauto. unfold measure, scan_fuel. cbn -[Nat.mul Nat.sub Nat.leb]. destruct (length s <=? i); destruct (content_state q); lia. Qed.
Lemma one_fuel : 1 <= scan_fuel s. Proof. unfold scan_fuel. lia. Qed.
Lemma ends_sh i ty o : ends_at U d' cs (k + i) ty (k + o) = ends_at U d cs i ty o.
Proof.
  unfold ends_at. rewrite new_sh, bind_rmap. apply bind_ext. intros sc S. apply ends_loop_sh; [eapply first_fuel; eauto|apply one_fuel|apply (fuel_le m a d d' HB)].
Qed.
Lemma followed_sh ty : forall f f' y sc, scan U t false cs y = rmap (sh a) (scan U s false cs sc) -> pos sc <= length s -> length s - pos sc < f -> f <= f' ->
  followed U d' cs f' ty y = followed U d cs f ty sc.
Proof.
  induction f as [|f IH]; intros f' y sc HY L M L2; [lia|]. destruct f' as [|f']; [lia|]. cbn [followed]. rewrite HY, bind_rmap.
  apply bind_ext. intros sc' S. cbn [sh tok]. destruct (token_eqb (tok sc') Whitespace) eqn:W; [|reflexivity]. apply token_eqb_eq in W.
  destruct (step_kind _ _ _ _ _ HS S) as (A1 & B & C & _); [congruence|]. apply IH; [apply step_sh|lia|lia|lia].
Qed.
Lemma is_followed_sh b q ty : b <= length s -> is_followed_by U d' cs (k + b) q ty = is_followed_by U d cs b q ty.
Proof.
  intros L. unfold is_followed_by. apply followed_sh; [apply new_sh|exact L|cbn [scanner_new pos]; unfold scan_fuel; lia|apply (fuel_le m a d d' HB)].
Qed.

(** ** Text around the cursor *)
Lemma word_start_sh limit : forall o, get_word_start t (k + limit) (k + o) = rmap (Nat.add k) (get_word_start s limit o).
Proof.
  induction o as [|o IH].
  - rewrite Nat.add_0_r. cbn [get_word_start]. destruct (length a) as [|j] eqn:E; [reflexivity|]. cbn [get_word_start].
    replace (Datatypes.S j + limit <? Datatypes.S j) with false by lia. cbn. f_equal. lia.
  - replace (k + Datatypes.S o) with (Datatypes.S (k + o)) by lia. cbn [get_word_start].
    replace (k + limit <? Datatypes.S (k + o)) with (limit <? Datatypes.S o) by lia. rewrite get1_sh. destruct (limit <? Datatypes.S o).
    + destruct (get1 s o) as [b|]; [|reflexivity]. destruct (white b); [cbn; f_equal; lia|exact IH].
    + cbn. f_equal. lia.
Qed.
Lemma word_end_sh limit : forall f f' o, limit - o <= f -> f <= f' -> get_word_end t f' (k + limit) (k + o) = rmap (Nat.add k) (get_word_end s f limit o).
Proof.
  induction f as [|f IH]; intros f' o L1 L2.
  - cbn [get_word_end]. destruct f'; cbn [get_word_end]; [reflexivity|]. replace (k + o <? k + limit) with false by lia. reflexivity.
  - destruct f' as [|f']; [lia|]. cbn [get_word_end]. replace (k + o <? k + limit) with (o <? limit) by lia. rewrite get1_sh.
    destruct (o <? limit) eqn:Q; [|reflexivity]. destruct (get1 s o) as [b|]; [|reflexivity]. destruct (white b); [reflexivity|].
    replace (k + o + 1) with (k + (o + 1)) by lia. apply IH; lia.
Qed.
Lemma replace_end_sh limit : forall f f' o, limit - o <= f -> f <= f' -> replace_end_from t f' (k + limit) (k + o) = k + replace_end_from s f limit o.
Proof.
  induction f as [|f IH]; intros f' o L1 L2.
  - cbn [replace_end_from]. destruct f'; cbn [replace_end_from]; [reflexivity|]. replace (k + o <? k + limit) with false by lia. reflexivity.
  - destruct f' as [|f']; [lia|]. cbn [replace_end_from]. replace (k + o <? k + limit) with (o <? limit) by lia. rewrite get1_sh.
    destruct (o <? limit) eqn:Q; [|reflexivity]. destruct (get1 s o) as [b|]; [|reflexivity]. destruct (b =? 60)%N; [reflexivity|].
    replace (k + o + 1) with (k + (o + 1)) by lia. apply IH; lia.
Qed.
Lemma indent_start_sh o : line_indent_start t (k + o) = option_map (Nat.add k) (line_indent_start s o).
Proof.
  induction o as [|o IH].
  - rewrite Nat.add_0_r. pose proof get1_seam as G. destruct (length a) as [|j] eqn:E; [reflexivity|]. cbn [line_indent_start]. rewrite (G j eq_refl).
    cbn. f_equal. lia.
  - replace (k + Datatypes.S o) with (Datatypes.S (k + o)) by lia. cbn [line_indent_start]. rewrite get1_sh. destruct (get1 s o) as [b|]; [|exact IH].
    destruct (b =? 10)%N; [cbn; f_equal; lia|]. destruct (white b); [exact IH|reflexivity].
Qed.
Lemma indent_sh o : get_line_indent t (k + o) = get_line_indent s o.
Proof. unfold get_line_indent. rewrite indent_start_sh. destruct (line_indent_start s o); cbn [option_map]; [|reflexivity]. rewrite slice_moved. reflexivity. Qed.
Lemma indent_len o x : get_line_indent s o = Ok (Some x) -> length x <= o.
Proof.
  unfold get_line_indent. destruct (line_indent_start s o) as [i|]; [|discriminate]. intros H. apply bind_ok in H as (y & Y & H).
  apply Ok_inj, Some_inj in H. subst y. unfold slice in Y. destruct (_ && _); [|discriminate]. apply Ok_inj in Y. subst x. rewrite firstn_length. lia.
Qed.
Lemma slash_sh : forall q i, 1 <= q <= i -> nth_error s q = Some SLASH -> slash_before d' (k + i) = rmap (option_map (Nat.add k)) (slash_before d i).
Proof.
  intros q. induction i as [|i IH]; intros L C; [lia|]. replace (k + Datatypes.S i) with (Datatypes.S (k + i)) by lia. cbn [slash_before].
  replace (Datatypes.S (k + i)) with (k + Datatypes.S i) by lia. rewrite get1_sh. destruct (get1 s (Datatypes.S i)) as [b|] eqn:G; [|reflexivity].
  destruct (b =? 47)%N eqn:B; [reflexivity|]. destruct (white b); [|reflexivity]. apply IH; auto.
  destruct (Nat.eq_dec q (Datatypes.S i)) as [E|]; [|lia]. subst q. unfold get1 in G. rewrite C in G. vm_compute in G. injection G as <-. discriminate.
Qed.

(** ** Items *)
Definition down_item (i : item) : item :=
  mkItem (ci_label i) (ci_kind i) (ci_doc i) (ci_filter i)
    (match ci_edit i with Some (r, x) => Some (down_range m r, x) | None => None end) (ci_format i) (ci_command i).
Definition completion_follows (q q' : completion_participant) : Prop :=
  (forall tag attr v r, cp_value q' tag attr v (down_range m r) = map down_item (cp_value q tag attr v r)) /\
  cp_content q' = map down_item (cp_content q).

Section R.
Variables (md : bool) (parts parts' : list completion_participant) (providers : list provider) (lang : str)
  (ents : list (str * list N)) (settings : option completion_settings) (order : list (str * str) -> list (str * str)).
Variables (roots front : list node).
Hypothesis HF : Forall2 completion_follows parts parts'.
Hypothesis HR : Forall (fun n => n_start n < k /\ n_end n <= k) front.
(** The front part has no data attributes. *)
Hypothesis HN : Forall (fun x => is_prefix (bs "data-") x = false) (flat_map all_attr_names front).
Notation all := (front ++ map mv roots).

Section Q.
Variables (p : position) (o : nat) (n : node) (ps : list node).
Notation p' := (down m p).
Notation o' := (k + o).
Notation n' := (mv n).
Notation ps' := (map mv ps).

Lemma replace_sh i j : replace_range d' o' (k + i) (k + j) = down_range m (replace_range d o i j).
Proof. unfold replace_range. replace (Nat.min (k + i) (k + o)) with (k + Nat.min i o) by lia. apply (range_sh m a d d' HB). Qed.
Lemma flat_map_map {A B C} (g : B -> C) (f : A -> list B) f' ls : (forall x, f' x = map g (f x)) -> flat_map f' ls = map g (flat_map f ls).
Proof. intros H. induction ls as [|x r IH]; [reflexivity|]. cbn [flat_map]. rewrite H, IH, map_app. reflexivity. Qed.
Lemma open_items_sh i j : open_tag_items d' providers lang settings o' (k + i) (k + j) = map down_item (open_tag_items d providers lang settings o i j).
Proof.
  unfold open_tag_items. apply flat_map_map. intros q. rewrite map_map. apply map_ext. intros td. rewrite replace_sh. reflexivity.
Qed.
Lemma open_at_mv x : open_at o' (mv x) = open_at o x.
Proof.
  unfold open_at. rewrite mv_tag, mv_closed, mv_ets. destruct (n_tag x); [|reflexivity]. destruct (n_ets x) as [e|]; cbn [option_map]; [|reflexivity].
  replace (k + o <? k + e) with (o <? e) by lia. reflexivity.
Qed.
Lemma find_mv f g ls : (forall x, f (mv x) = g x) -> find f (map mv ls) = option_map mv (find g ls).
Proof. intros H. induction ls as [|x r IH]; [reflexivity|]. cbn [map find]. rewrite H. destruct (g x); [reflexivity|exact IH]. Qed.
Lemma close_item_sh i j c x tag : 1 <= i -> close_item d' o' (k + i) (k + j) c (mv x) tag = rmap down_item (close_item d o i j c x tag).
Proof.
  intros L. unfold close_item. rewrite mv_start, indent_sh, rmap_bind. apply bind_ext. intros si _. rewrite usub_sh, bind_rmap, rmap_bind by auto.
  apply bind_ext. intros i1 _. rewrite indent_sh, rmap_bind. apply bind_ext. intros ei E. rewrite replace_sh. destruct si as [si|], ei as [ei|]; try reflexivity.
  destruct (beq si ei); [reflexivity|]. apply indent_len in E. rewrite usub_sh, bind_rmap, rmap_bind by auto. apply bind_ext. intros a2 _.
  rewrite replace_sh. reflexivity.
Qed.
Lemma close_tags_sh i f j : 1 <= i -> j <= length s -> close_tag_items U d' cs md providers lang settings o' n' ps' (k + i) f (k + j) =
  rmap (map down_item) (close_tag_items U d cs md providers lang settings o n ps i f j).
Proof.
  intros L1 L2. unfold close_tag_items. rewrite is_followed_sh, rmap_bind by auto. apply bind_ext. intros fo _.
  assert (E : (if f then rev ps' else n' :: rev ps') = map mv (if f then rev ps else n :: rev ps)).
  { rewrite <- map_rev. destruct f; reflexivity. }
  rewrite E, (find_mv _ (open_at o)) by apply open_at_mv. destruct (find _ _) as [x|]; cbn [option_map].
  - rewrite mv_tag. destruct (n_tag x) as [tag|]; [|reflexivity]. rewrite close_item_sh, bind_rmap, rmap_bind by auto. reflexivity.
  - cbn [rmap bind]. f_equal. destruct f; [reflexivity|]. apply flat_map_map. intros q. rewrite map_map. apply map_ext. reflexivity.
Qed.
Lemma tag_items_sh i j : 1 <= i -> j <= length s -> tag_items U d' cs md providers lang settings o' n' ps' (k + i) (k + j) =
  rmap (map down_item) (tag_items U d cs md providers lang settings o n ps i j).
Proof.
  intros L1 L2. unfold tag_items. rewrite close_tags_sh, bind_rmap, rmap_bind by auto. apply bind_ext. intros x _. cbn [rmap bind].
  rewrite open_items_sh, map_app. reflexivity.
Qed.

Lemma all_names_mv : forall x, all_attr_names (mv x) = all_attr_names x.
Proof.
  fix IH 1. intros [tag st en ch cl se es at_]. cbn. f_equal.
  - rewrite map_map. apply map_ext. intros [x y]. reflexivity.
  - induction ch as [|c r IHr]; [reflexivity|]. cbn. rewrite IH, IHr. reflexivity.
Qed.
Lemma no_data ex l : Forall (fun x => is_prefix (bs "data-") x = false) l -> forall acc, fold_left (add_data ex) l acc = acc.
Proof.
  induction 1 as [|x r X _ IH]; intros acc; [reflexivity|]. cbn [fold_left]. unfold add_data at 2. change data_prefix with (bs "data-"). rewrite X. cbn [andb]. apply IH.
Qed.
Lemma names_moved l : flat_map all_attr_names (map mv l) = flat_map all_attr_names l.
Proof. induction l as [|x r IH]; [reflexivity|]. cbn [map flat_map]. rewrite all_names_mv, IH. reflexivity. Qed.
Lemma data_attrs_sh ex : data_attrs all ex = data_attrs roots ex.
Proof.
  unfold data_attrs. rewrite flat_map_app, fold_left_app, names_moved, (no_data ex (flat_map all_attr_names front)) by exact HN. reflexivity.
Qed.
Lemma names_items_sh tag i j : i <= length s -> j <= length s ->
  attr_name_items U d' cs md providers lang settings order all o' n' tag (k + i) (k + j) =
  rmap (map down_item) (attr_name_items U d cs md providers lang settings order roots o n tag i j).
Proof.
  intros L1 L2. unfold attr_name_items. replace (k + j <? k + i) with (j <? i) by lia. rewrite !slice_moved, rmap_bind. apply bind_ext. intros cur _.
  rewrite is_followed_sh, rmap_bind by auto. apply bind_ext. intros f _. rewrite mv_names, rmap_bind. apply bind_ext. intros pr _.
  rewrite (replace_end_sh j (length s)) by (rewrite ?(text_eq m a d d' HB), ?app_length; lia). rewrite replace_sh, data_attrs_sh. cbn [rmap bind]. rewrite map_app, !map_map. reflexivity.
Qed.
Lemma parts_value tag attr v r l l' : Forall2 completion_follows l l' ->
  flat_map (fun q => cp_value q tag attr v (down_range m r)) l' = map down_item (flat_map (fun q => cp_value q tag attr v r) l).
Proof. induction 1 as [|q q' r1 r2 [X _] _ IH]; [reflexivity|]. cbn [flat_map]. rewrite X, IH, map_app. reflexivity. Qed.
Lemma parts_content l l' : Forall2 completion_follows l l' -> flat_map cp_content l' = map down_item (flat_map cp_content l).
Proof. induction 1 as [|q q' r1 r2 [_ X] _ IH]; [reflexivity|]. cbn [flat_map]. rewrite X, IH, map_app. reflexivity. Qed.
Lemma value_items_sh tag attr i j : j <= length s -> attr_value_items U d' cs md parts' providers lang settings o' tag attr (k + i) (k + j) =
  rmap (map down_item) (attr_value_items U d cs md parts providers lang settings o tag attr i j).
Proof.
  intros L. unfold attr_value_items. replace (k + i <? k + o) with (i <? o) by lia. replace (k + o <=? k + j) with (o <=? j) by lia.
  replace (k + i <? k + j) with (i <? j) by lia. rewrite get1_sh, rmap_bind. apply bind_ext. intros qu _.
  assert (F : forall rv, (do x <- Ok (down_range m (fst (fst rv)), snd (fst rv), snd rv);
     (let '(r, prefix, aq) := x in Ok (flat_map (fun q => cp_value q (fold_name U cs match tag with Some x => x | None => [] end) (fold_name U cs attr) prefix (replace_range d' o' (k + i) (k + j))) parts' ++
      flat_map (fun q => map (value_item md r aq) (pv_values q match tag with Some x => x | None => [] end attr)) (used providers lang settings)))) =
     rmap (map down_item) (let '(r, prefix, aq) := rv in Ok (flat_map (fun q => cp_value q (fold_name U cs match tag with Some x => x | None => [] end) (fold_name U cs attr) prefix (replace_range d o i j)) parts ++
      flat_map (fun q => map (value_item md r aq) (pv_values q match tag with Some x => x | None => [] end attr)) (used providers lang settings)))).
  { intros [[r pre] aq]. cbn [fst snd bind rmap]. rewrite replace_sh, map_app. do 2 f_equal.
    - apply parts_value, HF.
    - apply flat_map_map. intros q. rewrite map_map. apply map_ext. reflexivity. }
  set (up := fun rv : range * str * bool => (down_range m (fst (fst rv)), snd (fst rv), snd rv)).
  match goal with |- bind ?x _ = rmap _ (bind ?y _) => assert (E : x = rmap up y) end.
  { destruct qu.
    - assert (CB : (if (i <? j) && match get1 t (k + j - 1) with Some x => match get1 s i with Some y => (x =? y)%N | None => false end
                      | None => match get1 s i with Some _ => false | None => true end end then k + j - 1 else k + j) =
        k + (if (i <? j) && match get1 s (j - 1) with Some x => match get1 s i with Some y => (x =? y)%N | None => false end
                      | None => match get1 s i with Some _ => false | None => true end end then j - 1 else j)).
      { destruct (i <? j) eqn:Q; [|reflexivity]. replace (k + j - 1) with (k + (j - 1)) by lia. rewrite get1_sh. cbn [andb]. destruct (match get1 s (j - 1) with Some _ => _ | None => _ end); reflexivity. }
      rewrite CB. clear CB. set (cb := if (i <? j) && _ then j - 1 else j).
      assert (LC : cb <= length s) by (unfold cb; destruct (_ && _); lia). clearbody cb.
      replace (k + i + 1) with (k + (i + 1)) by lia. rewrite word_start_sh, bind_rmap, rmap_bind. apply bind_ext. intros ws _.
      rewrite (word_end_sh cb (length s)) by (rewrite ?(text_eq m a d d' HB), ?app_length; lia). rewrite bind_rmap, rmap_bind. apply bind_ext. intros we _.
      replace (k + (i + 1) <=? k + o) with (i + 1 <=? o) by lia. replace (k + o <? k + cb) with (o <? cb) by lia. rewrite slice_moved, rmap_bind. apply bind_ext. intros pre _.
      rewrite replace_sh. reflexivity.
    - rewrite slice_moved, rmap_bind. apply bind_ext. intros pre _. rewrite replace_sh. reflexivity. }
  rewrite E, bind_rmap, rmap_bind. apply bind_ext. intros rv _. exact (F rv).
Qed.

Lemma auto_items_sh e tag : auto_close_items d' providers lang settings (k + e) tag = map down_item (auto_close_items d providers lang settings e tag).
Proof.
  unfold auto_close_items. destruct (match settings with Some _ => _ | None => _ end); [reflexivity|]. destruct (is_void_element _ _); [reflexivity|].
  rewrite (range_sh m a d d' HB). reflexivity.
Qed.
Lemma entity_items_sh : entity_items d' ents p' o' = rmap (map down_item) (entity_items d ents p o).
Proof.
  unfold entity_items. rewrite (alnum_left_sh m a d d' HA HB HW). replace (k + o - (k + alnum_left s o)) with (o - alnum_left s o) by lia.
  change (character p') with (character p). rewrite rmap_bind. apply bind_ext. intros c0 _. destruct (alnum_left s o) as [|i].
  - rewrite Nat.add_0_r. destruct (length a) as [|j] eqn:E; [reflexivity|]. pose proof (get1_seam j E) as G. unfold get1 in G.
    destruct (nth_error t j) as [b|] eqn:NB; [|discriminate]. destruct (b =? 38)%N eqn:B; [|reflexivity]. apply N.eqb_eq in B. subst b. discriminate G.
  - replace (k + Datatypes.S i) with (Datatypes.S (k + i)) by lia. rewrite (nth_moved m a d d' HB). destruct (nth_error s i) as [b|]; [|reflexivity].
    destruct (b =? 38)%N; [|reflexivity]. rewrite rmap_bind. apply bind_ext. intros c1 _. cbn [rmap bind]. rewrite map_map. reflexivity.
Qed.
Lemma content_items_sh : content_items d' parts' ents p' o' = rmap (map down_item) (content_items d parts ents p o).
Proof.
  unfold content_items. rewrite entity_items_sh, bind_rmap, rmap_bind. apply bind_ext. intros l _. cbn [rmap bind]. rewrite (parts_content parts parts' HF), map_app. reflexivity.
Qed.
Lemma doctype_sh i j : doctype_item d' o' (k + i) (k + j) = down_item (doctype_item d o i j).
Proof. unfold doctype_item. rewrite replace_sh. reflexivity. Qed.
Lemma next_end_sh sc ty : next_end_pos U d' cs o' (sh a sc) ty = rmap (Nat.add k) (next_end_pos U d cs o sc ty).
Proof.
  unfold next_end_pos. change (pos (sh a sc)) with (k + pos sc). replace (k + o =? k + pos sc) with (o =? pos sc) by lia. destruct (o =? pos sc); [|reflexivity].
  rewrite step_sh, bind_rmap, rmap_bind. apply bind_ext. intros sc' _. change (tok (sh a sc')) with (tok sc'). change (tok_off (sh a sc')) with (k + tok_off sc').
  change (pos (sh a sc')) with (k + pos sc'). replace (k + tok_off sc' =? k + o) with (tok_off sc' =? o) by lia. destruct (_ && _); reflexivity.
Qed.
Hypothesis HO : o = offset_at d p.
Lemma o_end : o <= length s.
Proof. rewrite HO. apply o_le, HD. Qed.
Lemma next_end_le sc ty e : next_end_pos U d cs o sc ty = Ok e -> e <= length s.
Proof. rewrite HO. intros E. apply (next_end_ge U d cs HD ents order) in E. lia. Qed.
Lemma slash_pos : forall i q, slash_before d i = Ok (Some q) -> 1 <= q.
Proof.
  induction i as [|i IH]; intros q E; cbn [slash_before] in E; [discriminate|]. destruct (get1 s _) as [b|]; [|discriminate].
  destruct (b =? 47)%N; [injection E as <-; lia|]. destruct (white b); [auto|discriminate].
Qed.

(** What is known of the token in hand. *)
Definition in_hand (sc : scanner) : Prop := exists z, scan U s true cs z = Ok sc /\ behind d z /\ pos z <= length s.
Lemma in_hand_step sc sc' : in_hand sc -> scan U s true cs sc = Ok sc' -> in_hand sc' /\ pos sc <= length s.
Proof.
  intros (z & Z & B & L) E. assert (pos sc <= length s) by (apply (scan_pos U d cs HD ents order p) in Z; lia).
  split; auto. exists sc. split; auto. split; auto. eapply (behind_step U d cs HD ents order p); eauto.
Qed.
Definition lift (x : option (list item) * option str * str) : option (list item) * option str * str :=
  let '(r, tag, attr) := x in (option_map (map down_item) r, tag, attr).
Lemma done_sh (x x' : res (list item)) (tag : option str) (attr : str) : x' = rmap (map down_item) x ->
  (do i <- x'; Ok (Some i, tag, attr)) = rmap lift (do i <- x; Ok (Some i, tag, attr)).
Proof. intros ->. rewrite bind_rmap, rmap_bind. reflexivity. Qed.
Lemma complete_step_sh sc tag attr : m = 0 \/ line p <> 0 -> in_hand sc ->
  complete_step U d' cs md parts' providers lang ents settings order all p' o' n' ps' (sh a sc) tag attr =
  rmap lift (complete_step U d cs md parts providers lang ents settings order roots p o n ps sc tag attr).
Proof.
  intros HL (z & S & [E2 E3] & LZ). pose proof o_end as OE. pose proof (scan_pos U d cs HD ents order p _ _ S LZ) as LP.
  destruct (scan_progress U s true cs HS _ _ S) as [TZ PG].
  unfold complete_step. cbn zeta. rewrite text_sh. change (tok (sh a sc)) with (tok sc). change (st (sh a sc)) with (st sc).
  change (tok_off (sh a sc)) with (k + tok_off sc). change (pos (sh a sc)) with (k + pos sc).
  replace (k + pos sc =? k + o) with (pos sc =? o) by lia. replace (k + tok_off sc <=? k + o) with (tok_off sc <=? o) by lia.
  replace (k + o <=? k + pos sc) with (o <=? pos sc) by lia. replace (k + o <? k + pos sc) with (o <? pos sc) by lia.
  destruct (tok sc) eqn:TK; try (destruct (o <? pos sc); reflexivity).
  - destruct (pos sc =? o) eqn:Q; [|reflexivity]. rewrite next_end_sh, bind_rmap, rmap_bind. apply bind_ext. intros e E. apply next_end_le in E.
    apply done_sh. rewrite tag_items_sh, bind_rmap, rmap_bind; auto.
    + apply bind_ext. intros l _. cbn [rmap bind]. rewrite map_app. do 2 f_equal. change (line p') with (m + line p).
      replace (m + line p =? 0) with (line p =? 0) by (destruct HL; lia). destruct (line p =? 0); [|reflexivity]. rewrite doctype_sh. reflexivity.
    + destruct PG as [(X & _)|[(_ & X & _)|(_ & [X|X] & _)]]; try discriminate; lia.
  - destruct (o <=? pos sc); [|reflexivity]. destruct tag; [|reflexivity]. apply done_sh. rewrite auto_items_sh. reflexivity.
  - destruct (_ && _); [apply done_sh; rewrite open_items_sh; reflexivity|]. rewrite rmap_bind. reflexivity.
  - destruct (o <=? pos sc); [|reflexivity]. rewrite next_end_sh, bind_rmap, rmap_bind. apply bind_ext. intros e E. apply next_end_le in E.
    apply done_sh. replace (k + tok_off sc + 1) with (k + (tok_off sc + 1)) by lia. apply close_tags_sh; auto; lia.
  - destruct (o <=? pos sc); [|reflexivity]. assert (SZ : st z = AfterOpeningEndTag) by (eapply end_tag_name_step; eauto).
    destruct (E2 SZ) as (q & Q1 & Q2 & Q3 & Q4). rewrite usub_sh, bind_rmap, rmap_bind by lia. apply bind_ext. intros i I.
    assert (EI : i = tok_off sc - 1) by (unfold usub in I; replace (1 <=? tok_off sc) with true in I by lia; apply Ok_inj in I; auto).
    rewrite (slash_sh q) by (auto; lia). rewrite bind_rmap, rmap_bind. apply bind_ext. intros [q'|] B; [|reflexivity]. cbn [option_map]. apply done_sh.
    apply close_tags_sh; [eapply slash_pos; eauto|lia].
  - destruct (pos sc =? o) eqn:Q; [|reflexivity]. rewrite next_end_sh, bind_rmap, rmap_bind. apply bind_ext. intros e E. apply next_end_le in E.
    apply done_sh, value_items_sh. auto.
  - destruct (_ && _); [apply done_sh, names_items_sh; lia|]. rewrite rmap_bind. reflexivity.
  - destruct (_ && _); [|reflexivity]. apply done_sh, value_items_sh. lia.
  - destruct (o <=? pos sc); [|reflexivity]. apply done_sh, content_items_sh.
  - destruct (o <=? pos sc); [|reflexivity]. destruct (ws_step U d cs HD _ _ S TK) as (X1 & X2 & X3 & X4).
    destruct (st sc) eqn:ST; try reflexivity.
    + apply done_sh, content_items_sh.
    + rewrite next_end_sh, bind_rmap, rmap_bind. apply bind_ext. intros e E. apply next_end_le in E. destruct (E3 (X2 eq_refl)). apply done_sh, tag_items_sh; auto; lia.
    + destruct (E2 (X1 eq_refl)) as (q & Q1 & Q2 & Q3 & Q4). rewrite usub_sh, bind_rmap, rmap_bind by lia. apply bind_ext. intros i I.
      assert (EI : i = tok_off sc - 1) by (unfold usub in I; replace (1 <=? tok_off sc) with true in I by lia; apply Ok_inj in I; auto).
      destruct (Nat.eq_dec i 0) as [->|]; [lia|]. apply done_sh, close_tags_sh; lia.
    + apply done_sh, names_items_sh; lia.
    + apply done_sh, names_items_sh; lia.
    + congruence.
Qed.
Lemma complete_loop_sh : m = 0 \/ line p <> 0 -> forall f f' sc tag attr, in_hand sc -> tok sc = EOS \/ measure s sc + 1 < f -> 1 <= f -> f <= f' ->
  complete_loop U d' cs md parts' providers lang ents settings order all p' o' n' ps' f' (sh a sc) tag attr =
  rmap (map down_item) (complete_loop U d cs md parts providers lang ents settings order roots p o n ps f sc tag attr).
Proof.
  intros HL. induction f as [|f IH]; intros f' sc tag attr J M L1 L2; [lia|]. destruct f' as [|f']; [lia|]. cbn [complete_loop].
  change (tok (sh a sc)) with (tok sc). change (tok_off (sh a sc)) with (k + tok_off sc). replace (k + tok_off sc <? k + o) with (tok_off sc <? o) by lia.
  destruct (negb _ && _) eqn:G; [|reflexivity]. apply andb_true_iff in G as [G _]. apply negb_true_iff, token_eqb_neq in G.
  destruct M as [M|M]; [congruence|]. rewrite complete_step_sh by auto. rewrite bind_rmap, rmap_bind. apply bind_ext. intros [[r tag'] attr'] _. cbn [lift].
  destruct r as [l|]; cbn [option_map]; [reflexivity|]. rewrite step_sh, bind_rmap, rmap_bind. apply bind_ext. intros sc' E.
  destruct (in_hand_step _ _ J E). apply IH; auto; try lia. eapply (eof_or U cs d HS); eauto. lia.
Qed.
End Q.

Lemma open_below_mv y i : open_below (mv y) (k + i) = open_below y i.
Proof.
  unfold open_below. rewrite mv_start, mv_ets. replace (k + n_start y <? k + i) with (n_start y <? i) by lia. destruct (n_ets y) as [e|]; cbn [option_map]; [|reflexivity].
  replace (k + e <=? k + i) with (e <=? i) by lia. reflexivity.
Qed.
Lemma unclosed_mv i y : unclosed (k + i) (mv y) = unclosed i y.
Proof.
  unfold unclosed. rewrite mv_closed, mv_ets. destruct (n_ets y) as [e|]; cbn [option_map]; [|reflexivity]. replace (k + i <? k + e) with (i <? e) by lia. reflexivity.
Qed.
(** The whole requests, behind the start of the first element. *)
Section Whole.
Variables (p : position) (x : node) (ps : list node).
Notation o := (offset_at d p).
Hypothesis FX : find_node_before roots o = Ok (Some (x, ps)).
Hypothesis LX : n_start x < o.
Lemma found_moved : find_node_before all (k + o) = Ok (Some (mv x, map mv ps)).
Proof. rewrite (find_before_moved k front roots HR) by (rewrite FX; discriminate). rewrite FX. reflexivity. Qed.
Lemma complete_sh : m = 0 \/ line p <> 0 ->
  do_complete U d' cs md parts' providers lang ents settings order all (down m p) =
  rmap (map down_item) (do_complete U d cs md parts providers lang ents settings order roots p).
Proof.
  intros HL. unfold do_complete. rewrite (bl_off _ _ _ _ HB), found_moved, FX. cbn [bind]. rewrite mv_start, new_sh, bind_rmap, rmap_bind.
  pose proof (o_le d HD p). apply bind_ext. intros sc E. apply complete_loop_sh; auto.
  - exists (scanner_new (n_start x) WithinContent). split; auto. split; [split; discriminate|]. cbn [scanner_new pos]. lia.
  - eapply first_fuel; eauto.
  - apply one_fuel.
  - apply (fuel_le m a d d' HB).
Qed.
Lemma quote_sh : do_quote_complete U d' cs settings all (down m p) = do_quote_complete U d cs settings roots p.
Proof.
  unfold do_quote_complete. rewrite (bl_off _ _ _ _ HB). pose proof found_moved as FM. pose proof FX as FX'. pose proof LX as LX'. destruct (offset_at d p) as [|j]; [lia|].
  destruct (k + Datatypes.S j) as [|j'] eqn:EJ; [lia|]. assert (j' = k + j) by lia. subst j'. rewrite get1_sh. destruct (get1 s j) as [b|]; [|reflexivity].
  destruct (b =? 61)%N; [|reflexivity]. rewrite FM, FX'. cbn [bind]. rewrite <- ?EJ. rewrite open_below_mv, mv_start, new_sh, !bind_rmap.
  assert (Q : forall v, (do v0 <- scan U s false cs (scanner_new (n_start x) WithinContent); quote_loop U d' cs (scan_fuel t) (k + Datatypes.S j) v (sh a v0)) =
    (do sc <- scan U s false cs (scanner_new (n_start x) WithinContent); quote_loop U d cs (scan_fuel s) (Datatypes.S j) v sc)).
  { intros v. apply bind_ext. intros sc E. apply (quote_loop_sh); [lia|eapply first_fuel; eauto|apply one_fuel|apply (fuel_le m a d d' HB)]. }
  destruct (the_quotes settings); [reflexivity| |]; rewrite Q; reflexivity.
Qed.
Lemma tag_complete_sh : do_tag_complete U d' cs providers lang all (down m p) = do_tag_complete U d cs providers lang roots p.
Proof.
  unfold do_tag_complete. rewrite (bl_off _ _ _ _ HB). pose proof found_moved as FM. pose proof FX as FX'. pose proof LX as LX'. destruct (offset_at d p) as [|j]; [lia|].
  destruct (k + Datatypes.S j) as [|j'] eqn:EJ; [lia|]. assert (j' = k + j) by lia. subst j'. rewrite get1_sh. destruct (get1 s j) as [b|]; [|reflexivity].
  rewrite FM, FX'. cbn [bind]. rewrite <- ?EJ. rewrite mv_tag, open_below_mv, mv_start, ends_sh. destruct (b =? 62)%N; [reflexivity|]. destruct (b =? 47)%N; [|reflexivity].
  rewrite <- map_rev. change (mv x :: map mv (rev ps)) with (map mv (x :: rev ps)). rewrite (find_mv _ (unclosed (Datatypes.S j))) by (intros; apply unclosed_mv).
  destruct (find _ _) as [y|]; cbn [option_map]; [|reflexivity]. rewrite mv_tag, mv_start, ends_sh, get1_sh. reflexivity.
Qed.
End Whole.
End R.
End C.
