(** * PropData: C43, the lookups of the data manager and of data providers *)
From Verif Require Import Base Stream Scanner Tree Parser BaseFacts DataManager BuiltinData.
From Coq Require Import ZifyBool ZifyNat ZifyN Sorted Permutation.

(** ** Specification *)
(** The order of strings: at the first difference the smaller byte comes first; a
    string comes before its extensions. *)
Definition text_le (a b : str) : Prop :=
  (exists r, b = a ++ r) \/
  (exists p x a' y b', a = p ++ x :: a' /\ b = p ++ y :: b' /\ (x < y)%N).
(** [x] is declared void by a provider that applies to the language. *)
Definition declared_void (ps : list provider) (lang x : str) : Prop :=
  exists p td, In p ps /\ pv_applicable p lang = true /\ In td (pv_tags p) /\
    t_void td = Some true /\ t_name td = x.

(** ** Sorting *)
Lemma beq_eq' a b : beq a b = true <-> a = b.
Proof. apply beq_eq. Qed.

Lemma str_leb_le : forall a b, str_leb a b = true <-> text_le a b.
Proof.
  induction a as [|x a IH]; intros b; cbn [str_leb].
  - split; auto. intros _. left. exists b. auto.
  - destruct b as [|y b].
    + split; [discriminate|]. intros [(r & E)|(p & u & a' & v & b' & E1 & E2 & _)].
      * discriminate.
      * destruct p; discriminate.
    + rewrite orb_true_iff, andb_true_iff, N.ltb_lt, N.eqb_eq, IH. split.
      * intros [L|[-> [(r & ->)|(p & u & a' & v & b' & -> & -> & L)]]].
        -- right. exists [], x, a, y, b. auto.
        -- left. exists r. auto.
        -- right. exists (y :: p), u, a', v, b'. auto.
      * intros [(r & E)|(p & u & a' & v & b' & E1 & E2 & L)].
        -- cbn [app] in E. injection E as -> ->. right. split; auto. left. exists r. auto.
        -- destruct p as [|z p]; cbn [app] in *; injection E1 as -> ->; injection E2 as -> ->; auto.
           right. split; auto. right. exists p, u, a', v, b'. auto.
Qed.
Lemma text_le_total : forall a b, str_leb a b = true \/ str_leb b a = true.
Proof.
  induction a as [|x a IH]; intros [|y b]; cbn [str_leb]; auto.
  destruct (N.lt_trichotomy x y) as [L|[->|L]].
  - left. apply N.ltb_lt in L. rewrite L. auto.
  - rewrite N.ltb_irrefl, N.eqb_refl. cbn [orb andb]. apply IH.
  - right. apply N.ltb_lt in L. rewrite L. auto.
Qed.
Lemma text_le_trans : forall a b c, str_leb a b = true -> str_leb b c = true -> str_leb a c = true.
Proof.
  induction a as [|x a IH]; intros [|y b] [|z c]; cbn [str_leb]; auto; try discriminate.
  rewrite !orb_true_iff, !andb_true_iff, !N.ltb_lt, !N.eqb_eq.
  intros [L1|[-> L1]] [L2|[-> L2]]; auto; try (left; lia). right. eauto.
Qed.

Lemma str_insert_perm x l : Permutation (str_insert x l) (x :: l).
Proof.
  induction l as [|y l IH]; cbn [str_insert]; auto. destruct (str_leb x y); auto.
  rewrite IH. constructor.
Qed.
Lemma str_sort_perm l : Permutation (str_sort l) l.
Proof. induction l as [|x l IH]; cbn; auto. rewrite str_insert_perm. constructor. exact IH. Qed.
Lemma str_insert_sorted x l : StronglySorted text_le l -> StronglySorted text_le (str_insert x l).
Proof.
  induction l as [|y l IH]; intros H; cbn [str_insert]; [repeat constructor|].
  inv H. destruct (str_leb x y) eqn:E.
  - constructor; [constructor; auto|]. constructor; [apply str_leb_le; auto|].
    eapply Forall_impl; [|exact H3]. intros z L. apply str_leb_le in L. apply str_leb_le.
    eapply text_le_trans; eauto.
  - constructor; auto. apply Forall_forall. intros z I.
    apply (Permutation_in _ (str_insert_perm x l)) in I. destruct I as [<-|I].
    + destruct (text_le_total x y) as [C|C]; [congruence|]. apply str_leb_le. auto.
    + rewrite Forall_forall in H3. auto.
Qed.
Lemma str_sort_sorted l : StronglySorted text_le (str_sort l).
Proof. induction l; cbn; [constructor|]. apply str_insert_sorted. auto. Qed.

(** ** get_void_elements: exactly the declared void elements, sorted, one entry per
    declaration *)
Theorem C43_void_elements : forall ps lang x,
  In x (get_void_elements ps lang) <-> declared_void ps lang x.
Proof.
  intros ps lang x. unfold get_void_elements.
  split; intros H.
  - apply (Permutation_in _ (str_sort_perm _)) in H. apply in_flat_map in H as (p & P & H).
    apply filter_In in P as [P1 P2]. apply in_map_iff in H as (td & E & H).
    apply filter_In in H as [H1 H2]. exists p, td. unfold is_void_tag in H2.
    destruct (t_void td) as [[|]|] eqn:V; try discriminate. auto.
  - destruct H as (p & td & P1 & P2 & T & V & E).
    apply (Permutation_in _ (Permutation_sym (str_sort_perm _))). apply in_flat_map.
    exists p. split; [apply filter_In; auto|]. apply in_map_iff. exists td. split; auto.
    apply filter_In. split; auto. unfold is_void_tag. rewrite V. auto.
Qed.
Print Assumptions C43_void_elements.
Theorem C43_void_sorted : forall ps lang, StronglySorted text_le (get_void_elements ps lang).
Proof. intros ps lang. apply str_sort_sorted. Qed.
Print Assumptions C43_void_sorted.
(** One entry per declaration: providers contribute independently of each other. *)
Theorem C43_void_additive : forall ps ps' lang,
  Permutation (get_void_elements (ps ++ ps') lang) (get_void_elements ps lang ++ get_void_elements ps' lang).
Proof.
  intros ps ps' lang. unfold get_void_elements. rewrite !str_sort_perm, filter_app, flat_map_app. auto.
Qed.
Print Assumptions C43_void_additive.
Theorem C43_void_single : forall p lang,
  Permutation (get_void_elements [p] lang)
    (if pv_applicable p lang then map t_name (filter (fun td => match t_void td with Some b => b | None => false end) (pv_tags p))
     else []).
Proof.
  intros p lang. unfold get_void_elements. rewrite str_sort_perm. cbn [filter].
  destruct (pv_applicable p lang); cbn [flat_map]; rewrite ?app_nil_r; auto.
Qed.
Print Assumptions C43_void_single.

(** ** is_void_element: membership in the list *)
Theorem C43_is_void : forall ps lang x,
  is_void_element x (get_void_elements ps lang) = true <-> declared_void ps lang x.
Proof.
  intros ps lang x. rewrite <- C43_void_elements. unfold is_void_element. rewrite existsb_exists. split.
  - intros (y & I & E). apply beq_eq in E. subst y. auto.
  - intros I. exists x. split; auto. apply beq_eq. auto.
Qed.
Print Assumptions C43_is_void.

(** ** set_data_providers: the last call decides *)
(** The providers of a manager after a list of calls. *)
Fixpoint after_calls (built_in : provider) (ps : list provider) (calls : list (bool * list provider)) : list provider :=
  match calls with
  | [] => ps
  | (b, customs) :: r => after_calls built_in (set_data_providers built_in ps b customs) r
  end.
Theorem C43_replace : forall built_in use customs calls b last,
  after_calls built_in (manager_new built_in use customs) (calls ++ [(b, last)]) =
  if b then built_in :: last else last.
Proof.
  intros built_in use customs calls b last. generalize (manager_new built_in use customs).
  induction calls as [|[b' c'] calls IH]; intros ps.
  - destruct b; reflexivity.
  - apply IH.
Qed.
Print Assumptions C43_replace.
Theorem C43_new : forall built_in use customs,
  manager_new built_in use customs =
  (if use then [built_in] else []) ++ match customs with Some l => l | None => [] end.
Proof. intros built_in [|] [l|]; reflexivity. Qed.
Print Assumptions C43_new.

(** ** is_path_attribute: the documented pairs *)
Definition path_pairs : list (str * str) :=
  map (fun x => (bs (fst x), bs (snd x)))
  [("body", "background"); ("blockquote", "cite"); ("del", "cite"); ("form", "action");
   ("frame", "longdesc"); ("img", "longdesc"); ("ins", "cite"); ("object", "data"); ("q", "cite");
   ("button", "formaction"); ("command", "icon"); ("html", "manifest"); ("input", "formaction");
   ("video", "poster")]%string.
Definition in_table (x attr : str) : Prop := exists l, In (x, l) path_table /\ In attr l.

Lemma mem_in x l : mem x l = true <-> In x l.
Proof.
  unfold mem. rewrite existsb_exists. split.
  - intros (y & I & E). apply beq_eq in E. subst. auto.
  - intros I. exists x. split; auto. apply beq_eq. auto.
Qed.
Lemma assoc_in {A} : forall (l : list (str * A)), NoDup (map fst l) -> forall k v,
  assoc k l = Some v <-> In (k, v) l.
Proof.
  induction l as [|[k' v'] l IH]; intros D k v; cbn [assoc map fst In] in *.
  - split; [discriminate|tauto].
  - inv D. destruct (beq k k') eqn:E.
    + apply beq_eq in E. subst k'. split; [intros H; injection H as ->; auto|].
      intros [H|H]; [congruence|]. exfalso. apply H1. apply in_map_iff. exists (k, v). auto.
    + rewrite IH by auto. split; auto. intros [H|H]; auto. injection H as -> ->.
      rewrite (proj2 (beq_eq k k)) in E by auto. discriminate.
Qed.
Lemma nodup_bool (l : list str) : (fix nd l := match l with [] => true | x :: r => negb (mem x r) && nd r end) l = true -> NoDup l.
Proof.
  induction l as [|x l IH]; intros H; constructor.
  - apply andb_true_iff in H as [H _]. intros I. apply mem_in in I. rewrite I in H. discriminate.
  - apply andb_true_iff in H as [_ H]. auto.
Qed.
Lemma path_nodup : NoDup (map fst path_table).
Proof. apply nodup_bool. vm_compute. reflexivity. Qed.

Theorem C43_path_attribute : forall x attr,
  is_path_attribute x attr = true <->
  attr = bs "src" \/ attr = bs "href" \/ In (x, attr) path_pairs.
Proof.
  intros x attr. unfold is_path_attribute. rewrite orb_true_iff, mem_in.
  assert (T : (match assoc x path_table with Some l => mem attr l | None => false end) = true <-> in_table x attr).
  { destruct (assoc x path_table) as [l|] eqn:A.
    - apply (assoc_in _ path_nodup) in A as I. rewrite mem_in. split.
      + intros M. exists l. auto.
      + intros (l' & I' & M). apply (assoc_in _ path_nodup) in I'. congruence.
    - split; [discriminate|]. intros (l' & I' & M). apply (assoc_in _ path_nodup) in I'. congruence. }
  rewrite T. clear T. split.
  - intros [[E|[E|[]]]|(l & I & M)]; auto.
    assert (F : forallb (fun e => forallb (fun a => beq a (bs "src") || beq a (bs "href") ||
                  existsb (fun q => beq (fst q) (fst e) && beq (snd q) a) path_pairs) (snd e)) path_table = true)
      by (vm_compute; reflexivity).
    rewrite forallb_forall in F. specialize (F _ I). cbn [fst snd] in F.
    rewrite forallb_forall in F. specialize (F _ M).
    apply orb_true_iff in F as [F|F]; [apply orb_true_iff in F as [F|F]; apply beq_eq in F; auto|].
    apply existsb_exists in F as ([u v] & J & F). apply andb_true_iff in F as [F1 F2].
    apply beq_eq in F1, F2. cbn [fst snd] in F1, F2. subst u v. auto.
  - intros [E|[E|I]]; [left; left; auto|left; right; left; auto|right].
    assert (F : forallb (fun q => existsb (fun e => beq (fst e) (fst q) && mem (snd q) (snd e)) path_table) path_pairs = true)
      by (vm_compute; reflexivity).
    rewrite forallb_forall in F. specialize (F _ I). cbn [fst snd] in F.
    apply existsb_exists in F as ([u l] & J & F). apply andb_true_iff in F as [F1 F2].
    apply beq_eq in F1. apply mem_in in F2. cbn [fst snd] in F1, F2. subst u. exists l. auto.
Qed.
Print Assumptions C43_path_attribute.

(** ** Data providers: attributes and values *)
(** The entry of a tag: the last one of that name. *)
Definition tag_entry (dt : html_data) (x : str) (td : tag_data) : Prop :=
  exists before after, match hd_tags dt with Some l => l | None => [] end = before ++ td :: after /\
    t_name td = x /\ Forall (fun td' => t_name td' <> x) after.
Definition value_set (dt : html_data) (x : str) (l : list value_data) : Prop :=
  exists before after, match hd_sets dt with Some s => s | None => [] end = before ++ (x, l) :: after /\
    Forall (fun e => fst e <> x) after.

Lemma last_assoc_some {A} k : forall (l : list (str * A)) v, last_assoc k l = Some v <->
  exists l1 l2, l = l1 ++ (k, v) :: l2 /\ Forall (fun e => fst e <> k) l2.
Proof.
  assert (N : forall l : list (str * A), last_assoc k l = None -> Forall (fun e => fst e <> k) l).
  { induction l as [|[k' a] l IH]; cbn [last_assoc]; intros H; constructor.
    - cbn [fst]. intros ->. destruct (last_assoc k l); [discriminate|].
      rewrite (proj2 (beq_eq k k)) in H by auto. discriminate.
    - apply IH. destruct (last_assoc k l); [discriminate|auto]. }
  assert (N' : forall l : list (str * A), Forall (fun e => fst e <> k) l -> last_assoc k l = None).
  { induction l as [|[k' a] l IH]; cbn [last_assoc]; intros H; auto. inv H. cbn [fst] in H2.
    rewrite IH by auto. destruct (beq k k') eqn:E; auto. apply beq_eq in E. congruence. }
  induction l as [|[k' a] l IH]; intros v; cbn [last_assoc].
  - split; [discriminate|]. intros (l1 & l2 & E & _). destruct l1; discriminate.
  - destruct (last_assoc k l) as [a'|] eqn:L.
    + split.
      * intros H. injection H as ->. destruct (proj1 (IH v) eq_refl) as (l1 & l2 & -> & F).
        exists ((k', a) :: l1), l2. auto.
      * intros (l1 & l2 & E & F). destruct l1 as [|e l1]; cbn [app] in E.
        -- injection E as -> -> ->. rewrite N' in L by auto. discriminate.
        -- injection E as <- ->. f_equal. apply Some_inj. apply IH. exists l1, l2. auto.
    + split.
      * destruct (beq k k') eqn:E; [|discriminate]. apply beq_eq in E. subst k'.
        intros H. injection H as ->. exists [], l. auto.
      * intros (l1 & l2 & E & F). destruct l1 as [|e l1]; cbn [app] in E.
        -- injection E as -> -> ->. rewrite (proj2 (beq_eq k k)) by auto. auto.
        -- injection E as <- ->. exfalso. assert (Q : None = Some v) by (apply IH; exists l1, l2; auto). discriminate.
Qed.
Lemma find_tag_entry dt x td : find_tag dt x = Some td <-> tag_entry dt x td.
Proof.
  unfold find_tag, tag_entry, opt_list. rewrite last_assoc_some.
  set (l := match hd_tags dt with Some l => l | None => [] end). clearbody l. split.
  - intros (l1 & l2 & E & F).
    apply map_eq_app in E as (m1 & m2 & -> & <- & E).
    destruct m2 as [|td' m2]; [discriminate|]. cbn [map] in E. injection E as E1 E2 E3. subst td' l2.
    exists m1, m2. repeat split; auto. apply Forall_forall. intros y I.
    rewrite Forall_forall in F. apply (F (t_name y, y)). apply in_map_iff. exists y. auto.
  - intros (m1 & m2 & -> & E & F). exists (map (fun td => (t_name td, td)) m1), (map (fun td => (t_name td, td)) m2).
    rewrite map_app. cbn [map]. rewrite E. split; auto. apply Forall_forall. intros [y1 y2] I.
    apply in_map_iff in I as (z & Z1 & Z2). injection Z1 as <- <-. rewrite Forall_forall in F. cbn [fst]. auto.
Qed.

Definition same_name (U : unicode) (cs : bool) (entry x : str) : Prop :=
  if cs then entry = x else lower U entry = lower U x.

(** The attributes of a tag: those of its entry, then the global ones. *)
Theorem C43_attributes : forall U id dt cs x a,
  In a (pv_attributes (html_provider U id dt cs) x) <->
  (exists td, tag_entry dt (if cs then x else lower U x) td /\ In a (t_attrs td)) \/
  (exists g, hd_globals dt = Some g /\ In a g).
Proof.
  intros U id dt cs x a. cbn [pv_attributes html_provider]. unfold provide_attributes, fold_name, opt_list.
  rewrite in_app_iff.
  assert (G : In a (match hd_globals dt with Some l => l | None => [] end) <-> exists g, hd_globals dt = Some g /\ In a g).
  { destruct (hd_globals dt) as [g|]; split; try (intros []; tauto); eauto.
    - intros (g' & E & I). congruence.
    - intros (g' & E & I). discriminate. }
  rewrite G. destruct (find_tag dt (if cs then x else lower U x)) as [td|] eqn:F.
  - split; (intros [H|H]; [left|right; auto]).
    + exists td. split; auto. apply find_tag_entry. auto.
    + destruct H as (td' & E & I). apply find_tag_entry in E. congruence.
  - split; (intros [H|H]; [left|right; auto]); [destruct H|].
    destruct H as (td' & E & I). apply find_tag_entry in E. congruence.
Qed.
Print Assumptions C43_attributes.

(** The values of an attribute: those listed at an attribute of that name, and those
    of the value set it names. *)
Theorem C43_values : forall U id dt cs x attr v,
  In v (pv_values (html_provider U id dt cs) x attr) <->
  exists a, In a (pv_attributes (html_provider U id dt cs) x) /\ same_name U cs (a_name a) attr /\
    ((exists l, a_values a = Some l /\ In v l) \/
     (exists s l, a_set a = Some s /\ value_set dt s l /\ In v l)).
Proof.
  intros U id dt cs x attr v. cbn [pv_values pv_attributes html_provider].
  unfold provide_values. fold (provide_attributes U dt cs x). rewrite in_flat_map.
  assert (Q : forall a, In v (attr_entry_values dt a) <->
    ((exists l, a_values a = Some l /\ In v l) \/ (exists s l, a_set a = Some s /\ value_set dt s l /\ In v l))).
  { intros a. unfold attr_entry_values, opt_list. rewrite in_app_iff.
    assert (A1 : In v (match a_values a with Some l => l | None => [] end) <-> exists l, a_values a = Some l /\ In v l).
    { destruct (a_values a) as [l|]; split; try (intros []; tauto); eauto.
      - intros (l' & E & I). congruence.
      - intros (l' & E & I). discriminate. }
    rewrite A1. apply or_iff_compat_l. destruct (a_set a) as [s|].
    - destruct (last_assoc s (match hd_sets dt with Some l => l | None => [] end)) as [l|] eqn:L.
      + split.
        * intros I. exists s, l. apply last_assoc_some in L. auto.
        * intros (s' & l' & E & VS & I). injection E as <-. apply last_assoc_some in VS. congruence.
      + split; [intros []|]. intros (s' & l' & E & VS & I). injection E as <-. apply last_assoc_some in VS. congruence.
    - split; [intros []|]. intros (s' & l' & E & _). discriminate. }
  split.
  - intros (a & I & V). apply filter_In in I as [I B]. apply beq_eq in B. exists a. split; auto. split.
    + unfold same_name, fold_name in *. destruct cs; auto.
    + apply Q. auto.
  - intros (a & I & S & V). exists a. split; [|apply Q; auto]. apply filter_In. split; auto.
    apply beq_eq. unfold same_name, fold_name in *. destruct cs; auto.
Qed.
Print Assumptions C43_values.

(** ** The built-in data *)
Definition html_void_names : list str :=
  [bs "area"; bs "base"; bs "br"; bs "col"; bs "embed"; bs "hr"; bs "img"; bs "input"; bs "link";
   bs "meta"; bs "param"; bs "source"; bs "track"; bs "wbr"].
(** The void elements of the default data manager are those of HTML, for every
    language and in either case mode. *)
Theorem C43_builtin_void : forall U cs lang,
  get_void_elements (manager_new (html_provider U (bs "html5") builtin_data cs) true None) lang = html_void_names.
Proof. intros U cs lang. vm_compute. reflexivity. Qed.
Print Assumptions C43_builtin_void.
(** So are those the formatter goes by. *)
Theorem C43_formatter_void : html5_void = html_void_names.
Proof. reflexivity. Qed.
(** Every built-in tag is found in whatever case it is written (case-insensitive mode),
    and as it is written (case-sensitive mode). *)
Theorem C43_builtin_tags : forall U (cs : bool) x td, In td builtin_tags ->
  (if cs then x else lower U x) = t_name td ->
  pv_attributes (html_provider U (bs "html5") builtin_data cs) x = t_attrs td ++ builtin_globals.
Proof.
  intros U cs x td I E. cbn [pv_attributes html_provider]. unfold provide_attributes, fold_name. rewrite E.
  assert (F : find_tag builtin_data (t_name td) = Some td).
  { clear E. apply find_tag_entry. unfold tag_entry. cbn [hd_tags builtin_data].
    assert (D : NoDup (map t_name builtin_tags)) by (apply nodup_bool; vm_compute; reflexivity).
    apply in_split in I as (l1 & l2 & E1). exists l1, l2. rewrite E1 in *. repeat split; auto.
    rewrite map_app in D. cbn [map] in D. apply NoDup_remove_2 in D.
    apply Forall_forall. intros y J Q. apply D. apply in_or_app. right. rewrite <- Q. apply in_map. auto. }
  rewrite F. reflexivity.
Qed.
Print Assumptions C43_builtin_tags.

(** ** Findings *)
(** In case-insensitive mode the name is lowered, the entries are not: a custom tag with
    a capital letter is never found. *)
Theorem C43_upper_case_refuted : forall U,
  let dt := mkData (Some [mkTag (bs "myTag") None [mkAttr (bs "myAttr") None None None None] None None]) None None in
  pv_attributes (html_provider U (bs "x") dt false) (bs "myTag") = [] /\
  pv_attributes (html_provider U (bs "x") dt true) (bs "myTag") = [mkAttr (bs "myAttr") None None None None].
Proof. intros U. split; vm_compute; reflexivity. Qed.
Theorem C43_capital_lost : forall U dt x td,
  find_tag dt (lower U x) = Some td -> all_ascii x = true -> map ascii_lower (t_name td) = t_name td.
Proof.
  intros U dt x td F A. apply find_tag_entry in F as (l1 & l2 & _ & E & _). rewrite E. unfold lower. rewrite A.
  rewrite map_map. apply map_ext. intros c. unfold ascii_lower, ascii_upper_letter.
  destruct ((65 <=? c) && (c <=? 90))%N eqn:Q; [|rewrite Q; auto].
  replace ((65 <=? c + 32) && (c + 32 <=? 90))%N with false by lia. auto.
Qed.
Print Assumptions C43_capital_lost.
(** The value set named by 43 built-in attributes does not exist (they take no value). *)
Theorem C43_value_set_v_refuted :
  existsb (fun td => existsb (fun a => match a_set a with Some s => beq s (bs "v") | None => false end) (t_attrs td)) builtin_tags = true /\
  last_assoc (bs "v") builtin_sets = None.
Proof. split; vm_compute; reflexivity. Qed.

(** ** A case that meets the hypotheses: a custom provider beside the built-in one *)
Definition custom_provider : provider := html_provider demo_unicode (bs "mine")
  (mkData (Some [mkTag (bs "icon") None [mkAttr (bs "size") None (Some (bs "sizes")) None None] None (Some true)]) None
          (Some [(bs "sizes", [mkValue (bs "big") None None])])) false.
Example C43_demo :
  let ps := set_data_providers (html_provider demo_unicode (bs "html5") builtin_data false) [] true [custom_provider] in
  is_void_element (bs "icon") (get_void_elements ps (bs "html")) = true /\
  is_void_element (bs "div") (get_void_elements ps (bs "html")) = false /\
  nth_error (get_void_elements ps (bs "html")) 6 = Some (bs "icon") /\
  pv_values custom_provider (bs "ICON") (bs "Size") = [mkValue (bs "big") None None].
Proof. repeat split; vm_compute; reflexivity. Qed.
