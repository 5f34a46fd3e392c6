(** * C11-C20: the parser *)
From Verif Require Import Base Stream Scanner BaseFacts ScannerFacts ScanStep ScanProps ScanPanic
  ScanShape ScanResume ScanEnter Tree Parser ParseSpec ParseInv ParseOrder.
From Coq Require Import ZifyBool ZifyNat ZifyN Permutation Sorted.

(** The tokens of a document: what the parser's scanner returns before EOS. *)
Definition doc_tokens (U : unicode) (t : str) (cs : bool) : res (list token) :=
  do ' (l, _) <- tokens U t true cs (2 * length t + 2) (scanner_new 0 WithinContent); Ok l.

(** All nodes of a document, in document order. *)
Definition doc_nodes (roots : list node) : list node := flat_map preorder roots.

(** Example document: nested, void, self-closed, unclosed, cut and nameless elements. *)
Definition ex_doc : str :=
  bs "<div id=a Id class='x' id=""y""><br><p>one<img src=/><p/></ DIV ><li<ul></x></ul</ul><>a</><b a=".
Definition ex_parse : res (list node) := parse demo_unicode ex_doc false html5_void.
Definition shape (n : node) : list nat :=
  match n with mkNode _ s e ch _ a b _ =>
    [s; e; match a with Some x => x | None => 0 end; match b with Some x => x | None => 0 end; length ch]
  end.
Example ex_nodes :
  match ex_parse with
  | Ok roots => map (fun n => (n_tag n, shape n, n_closed n)) (doc_nodes roots)
  | _ => []
  end =
  [(Some (bs "div"), [0; 63; 30; 55; 2], true);
   (Some (bs "br"), [30; 34; 34; 0; 0], true);
   (Some (bs "p"), [34; 55; 37; 0; 2], false);
   (Some (bs "img"), [40; 51; 51; 0; 0], true);
   (Some (bs "p"), [51; 55; 55; 0; 0], true);
   (Some (bs "li"), [63; 66; 0; 0; 0], false);
   (Some (bs "ul"), [66; 78; 70; 74; 0], true);
   (None, [83; 89; 85; 86; 0], true);
   (Some (bs "b"), [89; 94; 0; 0; 0], false)].
Proof. vm_compute. reflexivity. Qed.

(** ** C11: parsing is total. It returns a document exactly when the scanner
    reads the text to its end; otherwise it panics where the scanner does. *)
Theorem C11_parse_total : forall U t cs void, Utf8 t ->
  (exists l roots, doc_tokens U t cs = Ok l /\ parse U t cs void = Ok roots) \/
  (exists r, doc_tokens U t cs = Panic r /\ parse U t cs void = Panic r).
Proof.
  intros U t cs void HU. pose proof (parse_ok U t cs void HU) as H. unfold doc_tokens, scan_fuel in *.
  destruct (tokens U t true cs (2 * length t + 2) (scanner_new 0 WithinContent)) as [[l f]|r|] eqn:E;
    cbn [bind].
  - left. destruct H as (roots & -> & _). eauto.
  - right. eauto.
  - tauto.
Qed.
Print Assumptions C11_parse_total.
(** In particular on every text without non-ASCII white space or C1 characters
    whose last character is ASCII. *)
Theorem C11_parse_clean : forall U t cs void, Utf8 t ->
  (forall c, In c (decode t) -> bad_char c = false) ->
  (forall t' c, t = t' ++ encode1 c -> scalar c = true -> (c < 128)%N) ->
  exists roots, parse U t cs void = Ok roots.
Proof.
  intros U t cs void HU H1 H2. destruct (C11_parse_total U t cs void HU) as [(l & r & _ & H)|(r & H & _)]; eauto.
  exfalso. unfold doc_tokens in H.
  assert (T : exists l f, tokens U t true cs (2 * length t + 2) (scanner_new 0 WithinContent) = Ok (l, f)).
  { apply tokens_safe; auto.
    - intros _. left. apply Bd_0; auto.
    - unfold measure. cbn. destruct (length t <=? 0); lia. }
  destruct T as (l & f & T). rewrite T in H. discriminate.
Qed.
Print Assumptions C11_parse_clean.

Lemma doc_ok U t cs void l roots : Utf8 t ->
  doc_tokens U t cs = Ok l -> parse U t cs void = Ok roots ->
  chain 0 roots (length t) /\ Forall (node_ok U t cs void false l) (doc_nodes roots) /\
  exists f, tokens U t true cs (2 * length t + 2) (scanner_new 0 WithinContent) = Ok (l, f).
Proof.
  intros HU HT HP. pose proof (parse_ok U t cs void HU) as H. unfold doc_tokens, scan_fuel in *.
  destruct (tokens U t true cs (2 * length t + 2) (scanner_new 0 WithinContent)) as [[l' f]|r|] eqn:E;
    cbn [bind] in HT; try discriminate. inv HT.
  destruct H as (roots' & H & H1 & H2). rewrite HP in H. inv H. split; auto. split; eauto.
  apply all_nodes_roots. auto.
Qed.
Lemma parse_tokens U t cs void roots : Utf8 t -> parse U t cs void = Ok roots ->
  exists l, doc_tokens U t cs = Ok l.
Proof.
  intros HU H. destruct (C11_parse_total U t cs void HU) as [(l & r & H1 & _)|(r & _ & H2)]; eauto. congruence.
Qed.
Lemma node_facts U t cs void roots : Utf8 t -> parse U t cs void = Ok roots ->
  exists l, doc_tokens U t cs = Ok l /\
    forall n, In n (doc_nodes roots) -> node_ok U t cs void false l n.
Proof.
  intros HU H. destruct (parse_tokens _ _ _ _ _ HU H) as (l & T). exists l. split; auto.
  destruct (doc_ok _ _ _ _ _ _ HU T H) as (_ & F & _). apply Forall_forall. auto.
Qed.

(** ** C12: spans *)
(** [chain a l b] (ParseSpec.v): the nodes of [l] lie between [a] and [b] in
    order without overlap. *)
Definition span_ok (t : str) (n : node) : Prop :=
  n_start n < n_end n /\ n_end n <= length t /\
  match n_ste n, n_ets n with
  | None, None => n_children n = []
  | Some s, None => n_start n < s /\ s <= n_end n /\ chain s (n_children n) (n_end n)
  | Some s, Some e => n_start n < s /\ s <= e /\ e < n_end n /\ chain s (n_children n) e
  | None, Some _ => False
  end.
Theorem C12_spans : forall U t cs void roots, Utf8 t -> parse U t cs void = Ok roots ->
  chain 0 roots (length t) /\ Forall (span_ok t) (doc_nodes roots).
Proof.
  intros U t cs void roots HU H. destruct (parse_tokens _ _ _ _ _ HU H) as (l & T).
  destruct (doc_ok _ _ _ _ _ _ HU T H) as (C & F & _). split; auto.
  eapply Forall_impl; [|exact F]. intros n []. destruct ok_span. split; [auto|]. split; [auto|].
  destruct ok_close.
  - rewrite H4, H3. repeat split; auto. eapply chain_le; eauto.
  - rewrite H4, H3, H5. cbn. enough (n_start n < n_end n) by lia. auto.
  - rewrite H4, H3, H5. cbn. enough (n_start n < n_end n) by lia. auto.
  - rewrite H4, H3. repeat split; auto. eapply chain_le; eauto.
  - rewrite H4, H3. auto.
Qed.
Print Assumptions C12_spans.

(** ** C13: one node per '<' of a start tag, in order. *)
Theorem C13_nodes_are_open_tags : forall U t cs void l roots, Utf8 t ->
  doc_tokens U t cs = Ok l -> parse U t cs void = Ok roots ->
  map n_start (doc_nodes roots) =
  map tk_off (filter (fun k => token_eqb (tk_type k) StartTagOpen) l).
Proof.
  intros U t cs void l roots HU T H. destruct (doc_ok _ _ _ _ _ _ HU T H) as (_ & _ & f & E).
  exact (parse_starts _ _ _ _ _ _ _ H E).
Qed.
Print Assumptions C13_nodes_are_open_tags.
Example C13_demo : exists roots, parse demo_unicode ex_doc false html5_void = Ok roots /\
  map n_start (doc_nodes roots) = [0; 30; 34; 40; 51; 63; 66; 83; 89].
Proof. eexists. vm_compute. auto. Qed.

(** ** C14: tag names are the source text. [name_text] and [char_at] are the
    specifications used for tokens (ScanShape.v, ScanPanic.v). *)
Definition tag_written (U : unicode) (t : str) (n : node) : Prop :=
  nth_error t (n_start n) = Some LT /\
  exists p, ws_run t (n_start n + 1) p /\
    match n_tag n with
    | Some x => exists e, name_text U t p e /\ x = sub t p e
    | None => (forall c, char_at t p c -> name_start_char U c = false) /\
              (forall b, nth_error t p = Some b -> is_ws b = false)
    end.

Lemma no_elem_char U t p : Utf8 t -> (forall e, ~ elem_name U t p e) ->
  forall c, char_at t p c -> name_start_char U c = false.
Proof.
  intros HU H c HC. destruct (name_start_char U c) eqn:E; auto. exfalso.
  pose proof (char_at_Bd _ _ _ HC) as B.
  destruct (char_at_skipn _ _ _ HC) as (Sc & r & Sr & Er).
  set (b := length (encode1 c) + char_run (name_char U) (skipn (length (encode1 c)) (skipn p t))).
  assert (M : m_element_name U (skipn p t) = Some (0, b)).
  { unfold m_element_name. unfold b. rewrite Er, decode1_encode by auto. rewrite E. auto. }
  apply m_element_name_some in M as Q. destruct Q as (_ & Q1 & Q2 & _). rewrite skipn_length in Q2.
  apply (H (p + b)). split; [lia|]. split; [lia|]. split; [apply Bd_boundary; auto|].
  rewrite M. f_equal. f_equal. lia.
Qed.

Theorem C14_tag_names : forall U t cs void roots, Utf8 t -> parse U t cs void = Ok roots ->
  Forall (tag_written U t) (doc_nodes roots).
Proof.
  intros U t cs void roots HU H. destruct (node_facts _ _ _ _ _ HU H) as (l & T & F).
  apply Forall_forall. intros n I. destruct (F n I). split; auto.
  destruct ok_tag as (p & W & M). exists p. split; auto. destruct (n_tag n).
  - destruct M as (e & M1 & M2). exists e. split; auto. eapply elem_name_text; eauto.
  - destruct M as [M1 M2]. split; auto. apply no_elem_char; auto.
Qed.
Print Assumptions C14_tag_names.
(** Without white space after the '<' the name starts right after it. *)
Theorem C14_tag_at_start : forall U t cs void roots n x, Utf8 t -> parse U t cs void = Ok roots ->
  In n (doc_nodes roots) -> n_tag n = Some x ->
  (forall b, nth_error t (n_start n + 1) = Some b -> is_ws b = false) ->
  x <> [] /\ is_prefix x (skipn (n_start n + 1) t) = true.
Proof.
  intros U t cs void roots n x HU H I E NW. destruct (node_facts _ _ _ _ _ HU H) as (l & T & F).
  destruct (F n I). destruct ok_tag as (p & (W1 & W2 & W3) & M). rewrite E in M.
  destruct M as (e & (M0 & M1 & _ & _) & M2).
  assert (p = n_start n + 1).
  { destruct (Nat.eq_dec p (n_start n + 1)) as [|N]; auto. exfalso.
    destruct (W3 (n_start n + 1)) as (b & B1 & B2); [lia|lia|]. apply NW in B1. congruence. }
  subst p x. split.
  - intros Q. apply (f_equal (@length N)) in Q. rewrite sub_length in Q by lia. cbn in Q. lia.
  - apply is_prefix_spec. exists (skipn e t). apply skipn_sub. lia.
Qed.
Print Assumptions C14_tag_at_start.

(** ** C15: end tags are the source text. *)
Definition same_name (U : unicode) (cs : bool) (tag name : option str) : Prop :=
  match tag, name with
  | Some x, Some y => if cs then x = y else lower U x = lower U y
  | None, None => True
  | _, _ => False
  end.
(** The end tag at [e] with name [name], up to [q]. *)
Definition end_tag_written (U : unicode) (t : str) (e : nat) (name : option str) (q : nat) : Prop :=
  sub t e (e + 2) = bs "</" /\
  exists p, ws_run t (e + 2) p /\
    match name with
    | Some x => exists p1 p2, name_text U t p p1 /\ x = sub t p p1 /\ ws_run t p1 p2 /\
        ((nth_error t p2 = Some GT /\ q = p2 + 1) \/ (nth_error t p2 = Some LT /\ q = p2))
    | None => (forall c, char_at t p c -> name_start_char U c = false) /\
        exists p2, p <= p2 /\ no_byte GT (sub t p p2) /\ nth_error t p2 = Some GT /\ q = p2 + 1
    end.

Lemma end_tag_text_written U t e name q : Utf8 t -> end_tag_text U t e name q -> end_tag_written U t e name q.
Proof.
  intros HU (H1 & p & H2 & H3). split; [apply (prefix_text t (bs "</")); auto|].
  exists p. split; auto. destruct name.
  - destruct H3 as (p1 & p2 & A & B & C). exists p1, p2. split; auto. eapply elem_name_text; eauto.
  - destruct H3 as (H3 & p2 & A & B & C). split; [apply no_elem_char; auto|]. exists p2.
    assert (A' := A). apply first_byte_shape in A' as [A1 _]; auto. destruct A as (A2 & _). auto.
Qed.

Theorem C15_end_tags : forall U t cs void roots n e, Utf8 t -> parse U t cs void = Ok roots ->
  In n (doc_nodes roots) -> n_ets n = Some e ->
  n_closed n = true /\
  exists name, end_tag_written U t e name (n_end n) /\ same_name U cs (n_tag n) name.
Proof.
  intros U t cs void roots n e HU H I E. destruct (node_facts _ _ _ _ _ HU H) as (l & T & F).
  destruct (F n I). destruct ok_close; try congruence. rewrite E in H1. inv H1. split; auto.
  exists name. split; [apply end_tag_text_written; auto|].
  unfold is_same_tag in H8. unfold same_name. destruct (n_tag n), name; cbn in H8; try discriminate; auto.
  apply beq_eq in H8. unfold norm in H8. destruct cs; auto.
Qed.
Print Assumptions C15_end_tags.
Example C15_demo : exists roots n, ex_parse = Ok roots /\ nth_error (doc_nodes roots) 0 = Some n /\
  n_ets n = Some 55 /\ n_tag n = Some (bs "div") /\ sub ex_doc 55 63 = bs "</ DIV >".
Proof. eexists. eexists. vm_compute. repeat split. Qed.

(** ** C17: the closed flag *)
Lemma tiles_app l1 : forall a l2 b, tiles a (l1 ++ l2) b -> exists m, tiles a l1 m /\ tiles m l2 b.
Proof.
  induction l1 as [|k l1 IH]; intros a l2 b H; cbn [tiles app] in *; [eauto|].
  destruct H as (H1 & H2 & H3 & H4). apply IH in H4 as (m & H4 & H5). exists m.
  pose proof (tiles_le _ _ _ H4). auto.
Qed.
Lemma tiles_bounds l : forall a b k, tiles a l b -> In k l -> a <= tk_off k /\ tk_off k <= tk_end k /\ tk_end k <= b.
Proof.
  induction l as [|x l IH]; intros a b k H I; [contradiction|]. cbn [tiles] in H.
  destruct H as (H1 & H2 & H3 & H4). destruct I as [->|I]; [lia|].
  apply (IH _ _ _ H4) in I. lia.
Qed.
(** Non-empty tokens are determined by their end, and by their start. *)
Lemma tiles_end_inj l : forall a b k k', tiles a l b -> In k l -> In k' l ->
  tk_off k < tk_end k -> tk_off k' < tk_end k' -> tk_end k = tk_end k' -> k = k'.
Proof.
  induction l as [|x l IH]; intros a b k k' H I I' N N' E; [contradiction|]. cbn [tiles] in H.
  destruct H as (H1 & H2 & H3 & H4). destruct I as [->|I], I' as [->|I']; auto.
  - apply (tiles_bounds _ _ _ _ H4) in I'. lia.
  - apply (tiles_bounds _ _ _ _ H4) in I. lia.
  - eapply IH; eauto.
Qed.
Lemma tiles_off_inj l : forall a b k k', tiles a l b -> In k l -> In k' l ->
  tk_off k < tk_end k -> tk_off k' < tk_end k' -> tk_off k = tk_off k' -> k = k'.
Proof.
  induction l as [|x l IH]; intros a b k k' H I I' N N' E; [contradiction|]. cbn [tiles] in H.
  destruct H as (H1 & H2 & H3 & H4). destruct I as [->|I], I' as [->|I']; auto.
  - apply (tiles_bounds _ _ _ _ H4) in I'. lia.
  - apply (tiles_bounds _ _ _ _ H4) in I. lia.
  - eapply IH; eauto.
Qed.

Lemma doc_tiles U t cs l : Utf8 t -> doc_tokens U t cs = Ok l -> tiles 0 l (length t).
Proof.
  unfold doc_tokens. intros HU H. apply bind_ok in H as ([l' f] & H & E). inv E.
  apply tokens_tile in H as [H _]; auto. cbn. lia.
Qed.

(** [start_tag_ends_with l n ty]: the start tag of [n] ends with a non-empty
    token of type [ty]. *)
Definition start_tag_ends_with (l : list token) (n : node) (ty : token_type) : Prop :=
  exists k, In k l /\ tk_type k = ty /\ tk_off k < tk_end k /\ n_ste n = Some (tk_end k).

Theorem C17_closed : forall U t cs void l roots n, Utf8 t ->
  doc_tokens U t cs = Ok l -> parse U t cs void = Ok roots -> In n (doc_nodes roots) ->
  (n_closed n = true <->
     n_ets n <> None \/
     start_tag_ends_with l n StartTagSelfClose \/
     (start_tag_ends_with l n StartTagClose /\ exists x, n_tag n = Some x /\ In x void)) /\
  (n_closed n = true -> n_ets n = None -> n_ste n = Some (n_end n) /\ n_children n = []) /\
  (n_closed n = false -> n_ets n = None).
Proof.
  intros U t cs void l roots n HU T H I. destruct (doc_ok _ _ _ _ _ _ HU T H) as (_ & F & _).
  rewrite Forall_forall in F. destruct (F n I). clear F.
  pose proof (doc_tiles _ _ _ _ HU T) as TL.
  assert (UQ : forall ty ty', start_tag_ends_with l n ty -> start_tag_ends_with l n ty' -> ty = ty').
  { intros ty ty' (k & K1 & K2 & K3 & K4) (k' & K1' & K2' & K3' & K4').
    enough (k = k') by congruence. apply (tiles_end_inj _ _ _ _ _ TL); auto. congruence. }
  assert (VD : forall x, In x void -> is_void_element x void = true).
  { intros x J. apply existsb_exists. exists x. split; auto. apply beq_refl. }
  assert (DV : forall x, is_void_element x void = true -> In x void).
  { intros x J. apply existsb_exists in J as (y & J & E). apply beq_eq in E. congruence. }
  destruct ok_close; change (start_tag_ends_with l n StartTagClose) in * || idtac.
  - repeat split; try congruence. left. congruence.
  - repeat split; try congruence. right. left. auto.
  - repeat split; try congruence. right. right. split; auto.
    destruct (n_tag n); [|discriminate]. eauto.
  - repeat split; try congruence. intros [Q|[Q|[_ (x & Q1 & Q2)]]]; [congruence| |].
    + pose proof (UQ _ _ H7 Q). discriminate.
    + rewrite Q1 in H3. cbn in H3. rewrite (VD x Q2) in H3. discriminate.
  - repeat split; try congruence. intros [Q|[(k & _ & _ & _ & Q)|[(k & _ & _ & _ & Q) _]]]; congruence.
Qed.
Print Assumptions C17_closed.

(** ** C18: attributes. [start_of] (ParseSpec.v) says: the tokens of the text
    contain '<' at the node's start followed by the maximal run [ks] of tokens
    inside that start tag, and for every [x] the node's attribute [x] is
    [attr_in t x ks]: that of the last name token [x] in [ks], with its offset and
    the value found after it. *)
Theorem C18_attributes : forall U t cs void l roots n, Utf8 t ->
  doc_tokens U t cs = Ok l -> parse U t cs void = Ok roots -> In n (doc_nodes roots) ->
  exists pre op ks post,
    l = pre ++ op :: ks ++ post /\ tk_type op = StartTagOpen /\ tk_off op = n_start n /\
    Forall (fun k => in_tag (tk_state k) = true) ks /\
    (forall k r, post = k :: r -> in_tag (tk_state k) = false) /\
    (forall x, attr_get x (n_attrs n) = attr_in t x ks) /\
    NoDup (attribute_names n).
Proof.
  intros U t cs void l roots n HU T H I. destruct (doc_ok _ _ _ _ _ _ HU T H) as (_ & F & _).
  rewrite Forall_forall in F. destruct (F n I).
  destruct ok_start as (pre & op & ks & post & A1 & A2 & A3 & A4 & A5 & A6 & A7 & A8 & A9).
  exists pre, op, ks, post. repeat split; auto.
Qed.
Print Assumptions C18_attributes.
(** What [attr_in] says, spelled out: names... *)
Theorem C18_attribute_names : forall t x ks,
  attr_in t x ks <> None <-> exists k, In k ks /\ tk_type k = AttributeName /\ sub t (tk_off k) (tk_end k) = x.
Proof.
  intros t x ks. induction ks as [|k ks IH]; cbn [attr_in].
  - split; [congruence|]. intros (k & [] & _).
  - destruct (attr_in t x ks) eqn:E.
    + split; [|congruence]. intros _. destruct IH as [IH _].
      destruct IH as (k' & K & K'); [congruence|]. exists k'. cbn. auto.
    + destruct (token_eqb (tk_type k) AttributeName && beq (tk_text t k) x) eqn:B.
      * apply andb_true_iff in B as [B1 B2]. apply token_eqb_eq in B1. apply beq_eq in B2.
        split; [|congruence]. intros _. exists k. cbn. auto.
      * split; [congruence|]. intros (k' & [->|K] & K1 & K2).
        -- rewrite K1 in B. unfold tk_text in B. rewrite K2, beq_refl in B. discriminate.
        -- exfalso. destruct IH as [_ IH]. apply IH; auto. exists k'. auto.
Qed.
Print Assumptions C18_attribute_names.
(** ...and the entry is that of the last occurrence. *)
Theorem C18_last_wins : forall t x ks k r,
  tk_type k = AttributeName -> sub t (tk_off k) (tk_end k) = x ->
  (forall k', In k' r -> tk_type k' = AttributeName -> sub t (tk_off k') (tk_end k') <> x) ->
  attr_in t x (ks ++ k :: r) = Some (mkAttr (value_after t r) (tk_off k)).
Proof.
  intros t x ks k r T E N. induction ks as [|y ks IH]; cbn [app attr_in].
  - destruct (attr_in t x r) eqn:Q.
    + exfalso. destruct (proj1 (C18_attribute_names t x r)) as (k' & K1 & K2 & K3); [congruence|].
      apply (N k'); auto.
    + rewrite T. unfold tk_text. rewrite E, beq_refl. auto.
  - rewrite IH. auto.
Qed.
Print Assumptions C18_last_wins.
Example C18_demo : exists roots n, ex_parse = Ok roots /\ nth_error (doc_nodes roots) 0 = Some n /\
  attr_get (bs "id") (n_attrs n) = Some (mkAttr (Some (bs """y""")) 23) /\
  attr_get (bs "Id") (n_attrs n) = Some (mkAttr None 10) /\
  attr_get (bs "class") (n_attrs n) = Some (mkAttr (Some (bs "'x'")) 13) /\
  attr_get (bs "name") (n_attrs n) = None.
Proof. eexists. eexists. vm_compute. repeat split. Qed.

(** ** C19: attribute order *)
(** The names are listed once each, by strictly increasing offset; [m'] is the
    same map in any other iteration order. *)
Theorem C19_attribute_order : forall U t cs void roots n m', Utf8 t ->
  parse U t cs void = Ok roots -> In n (doc_nodes roots) ->
  Permutation (n_attrs n) m' ->
  attribute_names_by_order (set_attrs m' n) = attribute_names_by_order n /\
  Permutation (attribute_names_by_order n) (attribute_names n) /\
  StronglySorted (fun x y => exists a b, attr_get x (n_attrs n) = Some a /\
     attr_get y (n_attrs n) = Some b /\ a_off a < a_off b) (attribute_names_by_order n).
Proof.
  intros U t cs void roots n m' HU H I P. destruct (node_facts _ _ _ _ _ HU H) as (l & T & F).
  pose proof (doc_tiles _ _ _ _ HU T) as TL.
  assert (SH : Forall (token_shape U t true) l).
  { unfold doc_tokens in T. apply bind_ok in T as ([l' f] & T & E). inv E.
    revert T. apply tokens_forall. intros a b. apply scan_shape. auto. }
  rewrite Forall_forall in SH.
  destruct (F n I). destruct ok_start as (pre & op & ks & post & A1 & A2 & A3 & A4 & A5 & A6 & A7 & A8 & A9).
  assert (G : forall m, NoDup (map fst m) -> forall x a, In (x, a) m <-> attr_get x m = Some a).
  { clear. induction m as [|[y b] m IH]; cbn [map fst attr_get In]; intros N x a.
    - split; [tauto|discriminate].
    - inv N. destruct (beq x y) eqn:E.
      + apply beq_eq in E. subst y. split; [intros [Q|Q]; [inv Q; auto|]|intros Q; inv Q; auto].
        exfalso. apply H1. apply (in_map fst) in Q. auto.
      + rewrite <- IH by auto. split; [intros [Q|Q]; auto; inv Q|auto].
        rewrite beq_refl in E. discriminate. }
  assert (TK : forall x a, attr_in t x ks = Some a -> exists k, In k l /\ tk_off k < tk_end k /\
     tk_off k = a_off a /\ sub t (tk_off k) (tk_end k) = x).
  { intros x a. assert (IK : forall k, In k ks -> In k l).
    { intros k K. subst l. rewrite in_app_iff. cbn. rewrite in_app_iff. auto. }
    clear - IK SH. induction ks as [|k ks IH]; cbn [attr_in]; [discriminate|].
    destruct (attr_in t x ks) eqn:E.
    - intros Q. inv Q. apply IH; auto. intros k' K. apply IK. right. auto.
    - destruct (token_eqb (tk_type k) AttributeName && beq (tk_text t k) x) eqn:B; [|discriminate].
      intros Q. inv Q. apply andb_true_iff in B as [B1 B2]. apply token_eqb_eq in B1. apply beq_eq in B2.
      exists k. cbn. repeat split; auto; [apply IK; left; auto|].
      assert (S := SH k (IK k (or_introl eq_refl))). unfold token_shape in S. rewrite B1 in S.
      destruct S as (c & C1 & C2 & C3 & _). apply (f_equal (@length N)) in C3.
      destruct (Nat.lt_ge_cases (tk_off k) (tk_end k)); auto. exfalso.
      unfold sub in C3. replace (tk_end k - tk_off k) with 0 in C3 by lia. cbn in C3.
      destruct c as [|c0 c]; [congruence|]. cbn [forallb] in C2. apply andb_true_iff in C2 as [C2 _].
      apply encode1_nonempty in C2. rewrite encode_cons, app_length in C3. lia. }
  assert (ND : NoDup (map (fun x => a_off (snd x)) (n_attrs n))).
  { assert (INJ : forall x y, In x (n_attrs n) -> In y (n_attrs n) -> a_off (snd x) = a_off (snd y) -> fst x = fst y).
    { intros [x a] [y b] X Y E. cbn in E. apply G in X; auto. apply G in Y; auto. rewrite A8 in X, Y.
      apply TK in X as (k & K1 & K2 & K3 & K4). apply TK in Y as (k' & K1' & K2' & K3' & K4').
      cbn. rewrite <- K4, <- K4'. f_equal; [congruence|].
      rewrite (tiles_off_inj _ _ _ k k' TL); auto. congruence. }
    revert ok_keys INJ. clear. generalize (n_attrs n). intros m N.
    induction m as [|x m IH]; cbn [map]; intros INJ; [constructor|]. cbn [map] in N. inv N.
    constructor; [|apply IH; auto; intros; apply INJ; cbn; auto].
    intros Q. apply in_map_iff in Q as (y & E & Y). apply H1.
    rewrite (INJ x y); cbn; auto. apply in_map. auto. }
  assert (S1 := sorted_strict _ (sort_sorted (n_attrs n))
     (Permutation_NoDup (Permutation_map _ (sort_perm (n_attrs n))) ND)).
  assert (S2 := sorted_strict _ (sort_sorted m')
     (Permutation_NoDup (Permutation_map _ (sort_perm m')) (Permutation_NoDup (Permutation_map _ P) ND))).
  unfold attribute_names_by_order. cbn [n_attrs set_attrs]. repeat split.
  - f_equal. apply strict_unique; auto.
    rewrite <- (sort_perm m'), <- (sort_perm (n_attrs n)). symmetry; auto.
  - unfold attribute_names. apply Permutation_map. symmetry. apply sort_perm.
  - assert (IN : forall x, In x (sort_by_off (n_attrs n)) -> attr_get (fst x) (n_attrs n) = Some (snd x)).
    { intros [x a] Q. apply (Permutation_in _ (Permutation_sym (sort_perm _))) in Q. apply G; auto. }
    revert S1 IN. generalize (sort_by_off (n_attrs n)). intros s S IN.
    induction S as [|x s S IH FA]; cbn [map]; constructor.
    + apply IH. intros; apply IN; cbn; auto.
    + rewrite Forall_forall in *. intros y Y. apply in_map_iff in Y as (z & <- & Z).
      exists (snd x), (snd z). repeat split; [apply IN; cbn; auto|apply IN; cbn; auto|]. apply FA; auto.
Qed.
Print Assumptions C19_attribute_order.
Example C19_demo : exists roots n, ex_parse = Ok roots /\ nth_error (doc_nodes roots) 0 = Some n /\
  attribute_names_by_order n = [bs "Id"; bs "class"; bs "id"].
Proof. eexists. eexists. vm_compute. repeat split. Qed.

(** ** C20: void elements *)
Theorem C20_void : forall U t cs void roots n x, Utf8 t -> parse U t cs void = Ok roots ->
  In n (doc_nodes roots) -> n_tag n = Some x -> In x void -> n_children n = [] /\ n_ets n = None.
Proof.
  intros U t cs void roots n x HU H I E V. destruct (node_facts _ _ _ _ _ HU H) as (l & T & F).
  assert (VD : is_void void (n_tag n) = true).
  { rewrite E. cbn. apply existsb_exists. exists x. split; auto. apply beq_refl. }
  destruct (F n I). destruct ok_close; try congruence; auto.
Qed.
Print Assumptions C20_void.
(** The comparison with the void list is case-sensitive even when the parser is
    not: an upper-case void tag swallows what follows. *)
Theorem C20_upper_case_refuted : exists t roots n,
  Utf8 t /\ parse demo_unicode t false html5_void = Ok roots /\ In n (doc_nodes roots) /\
  option_map (lower demo_unicode) (n_tag n) = Some (bs "br") /\ In (bs "br") html5_void /\ n_children n <> [].
Proof.
  exists (bs "<BR><p></p>"). eexists. eexists. split; [apply ascii_utf8; reflexivity|].
  split; [vm_compute; reflexivity|]. split; [left; reflexivity|].
  split; [vm_compute; reflexivity|]. split; [cbn; tauto|]. cbn. discriminate.
Qed.
Print Assumptions C20_upper_case_refuted.
