(** * What is asked about the end of a text is answered from that end alone *)
From Verif Require Import SelectionRange Base BaseFacts Stream Scanner ScannerFacts ScanStep ScanProps ScanShift
  Tree Parser ParseSpec ParseShift TextDoc TagServices DataManager Hover PropHoverDoc.
From Coq Require Import ZifyBool ZifyNat ZifyN.

(** ** Positions *)
(** A place [m] lines further down. *)
Definition down (m : nat) (p : position) : position := mkPos (m + line p) (character p).
Definition down_range (m : nat) (r : range) : range := mkRange (down m (r_start r)) (down m (r_end r)).
(** The text of [d'] is [a] followed by the text of [d], and the places of [d] are
    found [m] lines further down. *)
Record below_lines (m : nat) (a : str) (d d' : textdoc) : Prop := {
  bl_text : d_text d' = a ++ d_text d;
  bl_pos : forall o, position_at d' (length a + o) = down m (position_at d o);
  bl_off : forall p, offset_at d' (down m p) = length a + offset_at d p
}.
(** The text in front is nothing or ends with a line feed. *)
Definition whole_lines (a : str) : Prop := a = [] \/ exists b, a = b ++ [10%N].

Lemma rmap_bind {A B C} (g : B -> C) (x : res A) (f : A -> res B) : rmap g (bind x f) = bind x (fun v => rmap g (f v)).
Proof. destruct x; reflexivity. Qed.
Lemma bind_rmap {A B C} (g : A -> B) (x : res A) (f : B -> res C) : bind (rmap g x) f = bind x (fun v => f (g v)).
Proof. destruct x; reflexivity. Qed.
Lemma bind_ext {A B} (x : res A) (f g : A -> res B) : (forall v, x = Ok v -> f v = g v) -> bind x f = bind x g.
Proof. intros H. destruct x; cbn; auto. Qed.
Lemma usub_sh k x y : y <= x -> usub (k + x) y = rmap (Nat.add k) (usub x y).
Proof. intros L. unfold usub. replace (y <=? k + x) with true by lia. replace (y <=? x) with true by lia. cbn. f_equal. lia. Qed.

(** What a call returns does not depend on the token returned before. *)
Section Ignores.
Variables (U : unicode) (t : str) (emit cs : bool) (tk tk' : token_type) (o o' : nat) (er er' : option token_error).
Lemma within_ignores q p hs lt la ly :
  scan_within_tag U t emit cs (mkScanner q tk o er p hs lt la ly) = scan_within_tag U t emit cs (mkScanner q tk' o' er' p hs lt la ly).
Proof.
  unfold scan_within_tag, eos_or. cbn [pos has_space]. destruct (eos t p); [reflexivity|]. destruct (skip_ws t p); [reflexivity|].
  destruct hs; [|reflexivity]. destruct (next_attribute_name U t cs p) as [[[? ?]|]| |]; cbn [bind]; try reflexivity.
  destruct (peek_is t p EQ); reflexivity.
Qed.
Lemma quoted_ignores q p hs lt la ly i j :
  scan_quoted U t emit cs (mkScanner q tk o er p hs lt la ly) i j = scan_quoted U t emit cs (mkScanner q tk' o' er' p hs lt la ly) i j.
Proof.
  unfold scan_quoted. destruct (peek t j) as [ch|]; [|apply within_ignores]. destruct (_ || _); [|apply within_ignores].
  destruct (adv_until_char t (j + 1) ch). cbn [last_attr]. destruct (opt_beq la (bs "type")); [|reflexivity].
  destruct (if _ <? _ then _ else _); reflexivity.
Qed.
Lemma scan_ignores q p hs lt la ly :
  scan U t emit cs (mkScanner q tk o er p hs lt la ly) = scan U t emit cs (mkScanner q tk' o' er' p hs lt la ly).
Proof.
  assert (I : internal_scan U t emit cs (mkScanner q tk o er p hs lt la ly) = internal_scan U t emit cs (mkScanner q tk' o' er' p hs lt la ly));
    [|unfold scan; rewrite I; reflexivity].
  unfold internal_scan. destruct q; try reflexivity; cbn [st].
  all: try apply within_ignores.
  - unfold scan_after_opening_start_tag, eos_or. cbn [pos]. destruct (eos t p); [reflexivity|].
    destruct (next_element_name U t cs p) as [[[? ?]|]| |]; cbn [bind option_map]; try reflexivity.
    destruct (skip_ws t p); [reflexivity|]. destruct (p <? _); [reflexivity|]. apply within_ignores.
  - unfold scan_after_attribute_name, eos_or. cbn [pos]. destruct (eos t p); [reflexivity|].
    destruct (skip_ws t p); [reflexivity|]. destruct (adv_if_char t p EQ); [reflexivity|]. apply within_ignores.
  - unfold scan_before_attribute_value, eos_or. cbn [pos]. destruct (eos t p); [reflexivity|].
    destruct (skip_ws t p); [reflexivity|]. destruct (adv_if_regexp m_value t p) as [[[? ?]|]| |]; cbn [bind]; try reflexivity; [|apply quoted_ignores].
    cbn [last_attr]. match goal with |- bind ?x _ = _ => destruct x as [v| |] end; cbn [bind]; try reflexivity.
    destruct (opt_beq la (bs "type")), (0 <? length v); try reflexivity; apply quoted_ignores.
Qed.
End Ignores.

(** ** Queries *)
Section Tree.
Variable k : nat.
Notation mv := (shift k).
Definition mv_at (x : node * list node) := (mv (fst x), map mv (snd x)).

Lemma shift_fields n : n_tag (mv n) = n_tag n /\ n_start (mv n) = k + n_start n /\ n_end (mv n) = k + n_end n /\
  n_children (mv n) = map mv (n_children n) /\ n_closed (mv n) = n_closed n /\ n_ste (mv n) = option_map (Nat.add k) (n_ste n) /\
  n_ets (mv n) = option_map (Nat.add k) (n_ets n) /\ n_attrs (mv n) = map (shift_attr k) (n_attrs n).
Proof. destruct n; cbn. repeat split. Qed.
Lemma mv_tag n : n_tag (mv n) = n_tag n. Proof. apply shift_fields. Qed.
Lemma mv_start n : n_start (mv n) = k + n_start n. Proof. apply shift_fields. Qed.
Lemma mv_end n : n_end (mv n) = k + n_end n. Proof. apply shift_fields. Qed.
Lemma mv_children n : n_children (mv n) = map mv (n_children n). Proof. apply shift_fields. Qed.
Lemma mv_closed n : n_closed (mv n) = n_closed n. Proof. apply shift_fields. Qed.
Lemma mv_ste n : n_ste (mv n) = option_map (Nat.add k) (n_ste n). Proof. apply shift_fields. Qed.
Lemma mv_ets n : n_ets (mv n) = option_map (Nat.add k) (n_ets n). Proof. apply shift_fields. Qed.
Lemma mv_attrs n : n_attrs (mv n) = map (shift_attr k) (n_attrs n). Proof. apply shift_fields. Qed.
Lemma mv_names n : attribute_names (mv n) = attribute_names n.
Proof. unfold attribute_names. rewrite mv_attrs, map_map. apply map_ext. intros [x y]. reflexivity. Qed.

Lemma height_mv : forall n, height (mv n) = height n.
Proof.
  fix IH 1. intros [tag st en ch cl se es at_]. cbn. f_equal. induction ch as [|c r IHr]; [reflexivity|]. cbn. rewrite IH, IHr. reflexivity.
Qed.
Lemma idx_at_mv o l : idx_at (k + o) (map mv l) = idx_at o l.
Proof. induction l as [|c l IH]; cbn [idx_at map]; auto. rewrite mv_start, IH. replace (k + o <? k + n_start c) with (o <? n_start c) by lia. reflexivity. Qed.
Lemma idx_before_mv o l : idx_before (k + o) (map mv l) = idx_before o l.
Proof. induction l as [|c l IH]; cbn [idx_before map]; auto. rewrite mv_start, IH. replace (k + o <=? k + n_start c) with (o <=? n_start c) by lia. reflexivity. Qed.
Lemma nth_mv l i : nth_error (map mv l) i = option_map mv (nth_error l i).
Proof. apply nth_error_map. Qed.
Lemma last_mv n : last_child (mv n) = option_map mv (last_child n).
Proof.
  unfold last_child. rewrite mv_children. induction (n_children n) as [|c [|x l] IH]; [reflexivity|reflexivity|].
  cbn [map last] in *. exact IH.
Qed.

Lemma at_fuel_mv o : forall fuel n, find_node_at_fuel fuel (mv n) (k + o) = rmap mv_at (find_node_at_fuel fuel n o).
Proof.
  induction fuel as [|fuel IH]; intros n; [reflexivity|]. cbn [find_node_at_fuel]. rewrite mv_children, idx_at_mv.
  destruct (idx_at o (n_children n)) as [|i]; [reflexivity|]. rewrite nth_mv. destruct (nth_error _ i) as [c|]; [|reflexivity].
  cbn [option_map]. rewrite mv_start, mv_end. replace (k + n_start c <=? k + o) with (n_start c <=? o) by lia.
  replace (k + o <? k + n_end c) with (o <? n_end c) by lia. destruct (_ && _); [|reflexivity]. rewrite IH, rmap_bind, bind_rmap.
  apply bind_ext. intros [r ps] _. reflexivity.
Qed.
Lemma before_fuel_mv o : forall fuel n, find_node_before_fuel fuel (mv n) (k + o) = rmap mv_at (find_node_before_fuel fuel n o).
Proof.
  induction fuel as [|fuel IH]; intros n; [reflexivity|]. cbn [find_node_before_fuel]. rewrite mv_children, idx_before_mv.
  destruct (idx_before o (n_children n)) as [|i]; [reflexivity|]. rewrite nth_mv. destruct (nth_error _ i) as [c|]; [|reflexivity].
  cbn [option_map]. rewrite mv_start, mv_end, last_mv. replace (k + n_start c <? k + o) with (n_start c <? o) by lia.
  replace (k + o <? k + n_end c) with (o <? n_end c) by lia.
  assert (G : (do ' (r, ps) <- find_node_before_fuel fuel (mv c) (k + o); Ok (r, mv n :: ps)) =
    rmap mv_at (do ' (r, ps) <- find_node_before_fuel fuel c o; Ok (r, n :: ps))).
  { rewrite IH, rmap_bind, bind_rmap. apply bind_ext. intros [r ps] _. reflexivity. }
  destruct (n_start c <? o); [|reflexivity]. destruct (o <? n_end c); [exact G|].
  destruct (last_child c) as [lc|]; cbn [option_map]; [|reflexivity]. rewrite mv_end.
  replace (k + n_end lc =? k + n_end c) with (n_end lc =? n_end c) by lia. destruct (_ =? _); [exact G|reflexivity].
Qed.

Variables front roots : list node.
Hypothesis HF : Forall (fun n => n_start n < k /\ n_end n <= k) front.
Notation all := (front ++ map mv roots).

Lemma idx_at_list o l f : Forall (fun n => n_start n < k /\ n_end n <= k) f -> idx_at (k + o) (f ++ l) = length f + idx_at (k + o) l.
Proof. induction 1 as [|n r [X _] _ IH]; [reflexivity|]. cbn [app idx_at length]. replace (k + o <? n_start n) with false by lia. rewrite IH. reflexivity. Qed.
Lemma idx_before_list o l f : Forall (fun n => n_start n < k /\ n_end n <= k) f -> idx_before (k + o) (f ++ l) = length f + idx_before (k + o) l.
Proof. induction 1 as [|n r [X _] _ IH]; [reflexivity|]. cbn [app idx_before length]. replace (k + o <=? n_start n) with false by lia. rewrite IH. reflexivity. Qed.
Lemma idx_at_front o l : idx_at (k + o) (front ++ l) = length front + idx_at (k + o) l.
Proof. apply idx_at_list, HF. Qed.
Lemma idx_before_front o l : idx_before (k + o) (front ++ l) = length front + idx_before (k + o) l.
Proof. apply idx_before_list, HF. Qed.

Lemma find_at_moved o : find_node_at all (k + o) = rmap (option_map mv_at) (find_node_at roots o).
Proof.
  unfold find_node_at. rewrite idx_at_front, idx_at_mv. destruct (idx_at o roots) as [|i].
  - rewrite Nat.add_0_r. destruct (length front) as [|j] eqn:L; [reflexivity|].
    rewrite nth_error_app1 by lia. destruct (nth_error front j) as [c|] eqn:C; [|apply nth_error_None in C; lia].
    apply nth_error_In in C. pose proof HF as HF'. rewrite Forall_forall in HF'. specialize (HF' _ C) as [_ X]. replace (k + o <? n_end c) with false by lia.
    rewrite andb_false_r. reflexivity.
  - replace (length front + Datatypes.S i) with (Datatypes.S (length front + i)) by lia.
    rewrite nth_error_app2 by lia. replace (length front + i - length front) with i by lia. rewrite nth_mv.
    destruct (nth_error roots i) as [c|]; cbn [option_map]; [|reflexivity]. rewrite mv_start, mv_end.
    replace (k + n_start c <=? k + o) with (n_start c <=? o) by lia. replace (k + o <? k + n_end c) with (o <? n_end c) by lia.
    destruct (_ && _); [|reflexivity]. unfold find_node_at_in. rewrite height_mv, at_fuel_mv, rmap_bind, bind_rmap. reflexivity.
Qed.
(** In front of the first element the search goes on in the front part, so [o] is behind it. *)
Lemma find_before_moved o : find_node_before roots o <> Ok None ->
  find_node_before all (k + o) = rmap (option_map mv_at) (find_node_before roots o).
Proof.
  intros NN. unfold find_node_before in *. rewrite idx_before_front, idx_before_mv. destruct (idx_before o roots) as [|i]; [congruence|].
  replace (length front + Datatypes.S i) with (Datatypes.S (length front + i)) by lia.
  rewrite nth_error_app2 by lia. replace (length front + i - length front) with i by lia. rewrite nth_mv.
  destruct (nth_error roots i) as [c|]; cbn [option_map]; [|reflexivity]. rewrite mv_start, mv_end, last_mv.
  replace (k + n_start c <? k + o) with (n_start c <? o) by lia. replace (k + o <? k + n_end c) with (o <? n_end c) by lia.
  assert (G : (do x <- find_node_before_in (mv c) (k + o); Ok (Some x)) =
    rmap (option_map mv_at) (do x <- find_node_before_in c o; Ok (Some x))).
  { unfold find_node_before_in. rewrite height_mv, before_fuel_mv, rmap_bind, bind_rmap. reflexivity. }
  destruct (n_start c <? o); [|reflexivity]. destruct (o <? n_end c); [exact G|].
  destruct (last_child c) as [lc|]; cbn [option_map]; [|reflexivity]. rewrite mv_end.
  replace (k + n_end lc =? k + n_end c) with (n_end lc =? n_end c) by lia. destruct (_ =? _); [exact G|reflexivity].
Qed.
End Tree.

(** ** Loops over tokens *)
Section Loops.
Variables (U : unicode) (cs : bool) (m : nat) (a : str) (d d' : textdoc).
Hypothesis HA : Utf8 a.
Hypothesis HS : Utf8 (d_text d).
Hypothesis HB : below_lines m a d d'.
Notation s := (d_text d).
Notation t := (d_text d').
Notation k := (length a).
Notation mv := (shift k).

Lemma text_eq : t = a ++ s. Proof. apply HB. Qed.
Lemma range_sh i j : range_at d' (k + i) (k + j) = down_range m (range_at d i j).
Proof. unfold range_at, down_range. cbn [r_start r_end]. rewrite !(bl_pos _ _ _ _ HB). reflexivity. Qed.
Lemma step_sh emit sc : scan U t emit cs (sh a sc) = rmap (sh a) (scan U s emit cs sc).
Proof. rewrite text_eq. apply scan_sh; auto. Qed.
Lemma text_sh sc : token_text t (sh a sc) = token_text s sc.
Proof. rewrite text_eq. apply token_text_sh; auto. Qed.
Lemma content_of_sh r : get_content d' (down_range m r) = get_content d r.
Proof. unfold get_content, down_range. cbn [r_start r_end]. rewrite !(bl_off _ _ _ _ HB), text_eq. apply slice_sh; auto. Qed.
Lemma fuel_le : scan_fuel s <= scan_fuel t.
Proof. rewrite text_eq. unfold scan_fuel. rewrite app_length. lia. Qed.
Lemma new_sh emit i q : scan U t emit cs (scanner_new (k + i) q) = rmap (sh a) (scan U s emit cs (scanner_new i q)).
Proof. rewrite <- step_sh. apply scan_ignores. Qed.
Lemma less emit sc sc' : scan U s emit cs sc = Ok sc' -> tok sc' <> EOS -> measure s sc' < measure s sc.
Proof. apply scan_measure; auto. Qed.
Lemma eof_or emit sc sc' f : scan U s emit cs sc = Ok sc' -> measure s sc < f -> tok sc' = EOS \/ measure s sc' + 1 < f.
Proof.
  intros S M. destruct (token_eqb (tok sc') EOS) eqn:T; [left; apply token_eqb_eq; auto|right; apply token_eqb_neq in T].
  pose proof (less _ _ _ S T). lia.
Qed.

(** *** Highlights *)
Definition pair_up (x : nat * nat) := (k + fst x, k + snd x).
Lemma scan_to_sh ty : forall f f' y sc, scan U t false cs y = rmap (sh a) (scan U s false cs sc) -> measure s sc < f -> f <= f' ->
  scan_to U t cs f' ty y = rmap (option_map pair_up) (scan_to U s cs f ty sc).
Proof.
  induction f as [|f IH]; intros f' y sc HY M L; [lia|]. destruct f' as [|f']; [lia|]. cbn [scan_to].
  rewrite HY, bind_rmap, rmap_bind. apply bind_ext. intros sc' S. cbn [sh tok tok_off pos].
  destruct (token_eqb (tok sc') EOS) eqn:T; [reflexivity|]. apply token_eqb_neq in T. pose proof (less _ _ _ S T).
  destruct (token_eqb (tok sc') ty); [reflexivity|]. apply IH; [apply step_sh|lia|lia].
Qed.
Lemma name_range_sh ty i : get_tag_name_range U d' cs ty (k + i) = rmap (option_map (down_range m)) (get_tag_name_range U d cs ty i).
Proof.
  unfold get_tag_name_range. rewrite (scan_to_sh ty (scan_fuel s) _ _ (scanner_new i WithinContent)) by (apply new_sh || apply (start_measure d) || apply fuel_le).
  rewrite bind_rmap, rmap_bind. apply bind_ext. intros [[x y]|] _; [|reflexivity]. cbn. rewrite range_sh. reflexivity.
Qed.
Lemma covers_sh r p : covers (down_range m r) (down m p) = covers r p.
Proof. destruct r as [[] []], p. unfold covers, is_before_or_equal, down_range, down. cbn -[Nat.ltb Nat.leb Nat.eqb]. lia. Qed.

(** *** Hover *)
Lemma hover_scan_sh ty o : forall f f' y sc, scan U t false cs y = rmap (sh a) (scan U s false cs sc) -> measure s sc < f -> f <= f' ->
  hover_scan U d' cs f' ty (k + o) y = rmap (sh a) (hover_scan U d cs f ty o sc).
Proof.
  induction f as [|f IH]; intros f' y sc HY M L; [lia|]. destruct f' as [|f']; [lia|]. cbn [hover_scan].
  rewrite HY, bind_rmap, rmap_bind. apply bind_ext. intros sc' S. cbn [sh tok tok_off pos].
  replace (k + pos sc' <? k + o) with (pos sc' <? o) by lia. replace (k + pos sc' =? k + o) with (pos sc' =? o) by lia.
  destruct (token_eqb (tok sc') EOS) eqn:T; [reflexivity|]. apply token_eqb_neq in T. pose proof (less _ _ _ S T). cbn [negb andb].
  destruct (_ || _); [|reflexivity]. apply IH; [apply step_sh|lia|lia].
Qed.
Lemma hover_range_sh ty i o : hover_token_range U d' cs ty (k + i) (k + o) =
  rmap (option_map (down_range m)) (hover_token_range U d cs ty i o).
Proof.
  unfold hover_token_range. rewrite (hover_scan_sh ty o (scan_fuel s) _ _ (scanner_new i WithinContent)) by (apply new_sh || apply (start_measure d) || apply fuel_le).
  rewrite bind_rmap, rmap_bind. apply bind_ext. intros sc _. cbn [sh tok tok_off pos].
  replace (k + o <=? k + pos sc) with (o <=? pos sc) by lia. destruct (_ && _); [|reflexivity]. cbn. rewrite range_sh. reflexivity.
Qed.
Lemma attr_before_sh stop : forall f f' sc prev, tok sc = EOS \/ measure s sc + 1 < f -> 1 <= f -> f <= f' ->
  attr_before U d' cs f' (k + stop) (sh a sc) prev = attr_before U d cs f stop sc prev.
Proof.
  induction f as [|f IH]; intros f' sc prev M L1 L2; [lia|]. destruct f' as [|f']; [lia|]. cbn [attr_before]. cbn [sh tok pos].
  replace (k + pos sc <=? k + stop) with (pos sc <=? stop) by lia.
  destruct (token_eqb (tok sc) EOS) eqn:T; [reflexivity|]. apply token_eqb_neq in T. destruct M as [M|M]; [congruence|].
  cbn [negb andb]. destruct (pos sc <=? stop); [|reflexivity]. fold (sh a sc). rewrite step_sh, bind_rmap. apply bind_ext.
  intros sc' S. rewrite text_sh. cbn [sh tok]. fold (sh a sc').
  pose proof (eof_or _ _ _ f S ltac:(lia)). destruct (token_eqb (tok sc') AttributeName); [apply bind_ext; intros x _|]; apply IH; auto; lia.
Qed.
Lemma scan_attr_sh i stop : scan_attr_and_attr_value U d' cs (k + i) (k + stop) = scan_attr_and_attr_value U d cs i stop.
Proof.
  unfold scan_attr_and_attr_value. rewrite new_sh, bind_rmap. apply bind_ext. intros sc S.
  apply attr_before_sh; [|unfold scan_fuel; lia|apply fuel_le]. eapply eof_or; eauto. apply (start_measure d).
Qed.

(** *** Words to the left *)
Hypothesis HW : whole_lines a.
Lemma before_seam : 0 < k -> nth_error t (k - 1) = Some 10%N.
Proof.
  intros L. rewrite text_eq. destruct HW as [->|(b & E)]; [cbn in L; lia|]. rewrite E, app_length. cbn [length].
  rewrite <- app_assoc. replace (length b + 1 - 1) with (length b) by lia. rewrite nth_error_app2 by lia. replace (length b - length b) with 0 by lia. reflexivity.
Qed.
Lemma nth_moved i : nth_error t (k + i) = nth_error s i.
Proof. rewrite text_eq. apply nth_sh. Qed.
Lemma alnum_at_sh i : alnum_at t (k + i) = alnum_at s i.
Proof. unfold alnum_at. rewrite nth_moved. reflexivity. Qed.
Lemma alnum_left_sh o : alnum_left t (k + o) = k + alnum_left s o.
Proof.
  induction o as [|o IH].
  - cbn [alnum_left]. rewrite Nat.add_0_r. pose proof before_seam as B. destruct (length a) as [|j]; [reflexivity|]. cbn [alnum_left].
    unfold alnum_at. replace (Datatypes.S j - 1) with j in B by lia. rewrite B by lia. reflexivity.
  - replace (k + Datatypes.S o) with (Datatypes.S (k + o)) by lia. cbn [alnum_left]. rewrite alnum_at_sh. destruct (alnum_at s o); [auto|lia].
Qed.
Lemma run_sh i : alnum_run (skipn (k + i) t) = alnum_run (skipn i s).
Proof. rewrite text_eq, skipn_sh. reflexivity. Qed.
Lemma left_le x o : alnum_left x o <= o.
Proof. induction o as [|o IH]; cbn [alnum_left]; [lia|]. destruct (alnum_at x o); lia. Qed.

Lemma entity_range_sh p o : get_entity_range d' (down m p) (k + o) = rmap (option_map (down_range m)) (get_entity_range d p o).
Proof.
  unfold get_entity_range. rewrite alnum_left_sh. pose proof (left_le s o) as LL. set (i := alnum_left s o) in *.
  replace (k + o - (k + i)) with (o - i) by lia. cbn [down]. rewrite rmap_bind. apply bind_ext. intros c0 _. rewrite run_sh.
  cbn [rmap bind]. f_equal. destruct i as [|i'] eqn:EI.
  - rewrite Nat.add_0_r. pose proof before_seam as B. destruct (length a) as [|j]; [reflexivity|]. replace (Datatypes.S j - 1) with j in B by lia.
    rewrite B by lia. reflexivity.
  - replace (k + Datatypes.S i') with (Datatypes.S (k + i')) by lia. rewrite nth_moved.
    destruct (nth_error s i') as [b|]; [|reflexivity]. destruct (b =? 38)%N; [|reflexivity].
    replace (Datatypes.S (k + i') + alnum_run (skipn (Datatypes.S i') s)) with (k + (Datatypes.S i' + alnum_run (skipn (Datatypes.S i') s))) by lia.
    rewrite nth_moved. reflexivity.
Qed.
Lemma entity_found p o x : get_entity_range d p o = Ok (Some x) -> alnum_left s o <> 0.
Proof. unfold get_entity_range. intros H E. rewrite E in H. apply bind_ok in H as (c & _ & H). discriminate. Qed.
Lemma filter_entity_sh o : alnum_left s o <> 0 -> filter_entity d' (k + o) = filter_entity d o.
Proof.
  intros NZ. unfold filter_entity. rewrite alnum_left_sh. destruct (alnum_left s o) as [|i] eqn:E; [congruence|].
  replace (k + Datatypes.S i) with (Datatypes.S (k + i)) by lia. replace (Datatypes.S (k + i)) with (k + Datatypes.S i) by lia.
  rewrite run_sh. rewrite text_eq, skipn_sh. destruct (k + Datatypes.S i) eqn:Q; [lia|reflexivity].
Qed.
End Loops.
