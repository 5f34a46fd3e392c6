(** * What a parsed tree says about the text: the specification used for the
    parser properties C11-C20. *)
From Verif Require Import Base Stream Scanner BaseFacts ScannerFacts ScanProps ScanPanic ScanShape
  ScanResume Tree Parser.

(** All nodes of a tree. *)
Inductive all_nodes (P : node -> Prop) : node -> Prop :=
| all_nodes_intro n : P n -> Forall (all_nodes P) (n_children n) -> all_nodes P n.

(** [chain lo l hi]: the nodes of [l] lie between [lo] and [hi], in order and
    without overlap. *)
Fixpoint chain (lo : nat) (l : list node) (hi : nat) : Prop :=
  match l with
  | [] => lo <= hi
  | c :: r => lo <= n_start c /\ n_start c < n_end c /\ chain (n_end c) r hi
  end.

(** White space between two offsets. *)
Definition ws_run (t : str) (a b : nat) : Prop :=
  a <= b /\ b <= length t /\ forall i, a <= i -> i < b -> exists x, nth_error t i = Some x /\ is_ws x = true.

(** The tag name written after the '<' at [n_start n]. *)
Definition tag_text (U : unicode) (t : str) (start : nat) (tag : option str) : Prop :=
  exists p, ws_run t (start + 1) p /\
    match tag with
    | Some x => exists e, elem_name U t p e /\ x = sub t p e
    | None => (forall e, ~ elem_name U t p e) /\ (forall x, nth_error t p = Some x -> is_ws x = false)
    end.

(** An end tag written at [e], with its name (if any), ending at [q]: at its '>',
    or before a '<' when the '>' is missing. *)
Definition end_tag_text (U : unicode) (t : str) (e : nat) (name : option str) (q : nat) : Prop :=
  is_prefix (bs "</") (skipn e t) = true /\
  exists p, ws_run t (e + 2) p /\
    match name with
    | Some x => exists p1 p2, elem_name U t p p1 /\ x = sub t p p1 /\ ws_run t p1 p2 /\
        ((nth_error t p2 = Some GT /\ q = p2 + 1) \/ (nth_error t p2 = Some LT /\ q = p2))
    | None => (forall p1, ~ elem_name U t p p1) /\
        exists p2, first_byte t p GT p2 /\ nth_error t p2 = Some GT /\ q = p2 + 1
    end.

(** ** Start tags as token lists *)
Definition tk_text (t : str) (k : token) : str := sub t (tk_off k) (tk_end k).

(** Tokens of a start tag after its '<'. *)
Definition in_tag (s : sstate) : bool :=
  match s with AfterOpeningStartTag => true | s => in_start_tag s end.

(** The value given to an attribute whose name is followed by the tokens [r]. *)
Fixpoint value_after (t : str) (r : list token) : option str :=
  match r with
  | [] => None
  | k :: r' =>
      match tk_type k with
      | Whitespace => value_after t r'
      | DelimiterAssign =>
          Some (match r' with
                | k' :: _ => if token_eqb (tk_type k') AttributeValue then tk_text t k' else []
                | [] => []
                end)
      | _ => None
      end
  end.

(** The last attribute named [x] among the tokens of a start tag. *)
Fixpoint attr_in (t : str) (x : str) (ks : list token) : option attribute :=
  match ks with
  | [] => None
  | k :: r =>
      match attr_in t x r with
      | Some a => Some a
      | None => if token_eqb (tk_type k) AttributeName && beq (tk_text t k) x
                then Some (mkAttr (value_after t r) (tk_off k)) else None
      end
  end.

(** The name token of a start tag. *)
Fixpoint tag_in (t : str) (ks : list token) : option str :=
  match ks with
  | [] => None
  | k :: r => match tag_in t r with
              | Some x => Some x
              | None => if token_eqb (tk_type k) StartTag then Some (tk_text t k) else None
              end
  end.

(** The end of a start tag: the end of its '>' or '/>', none when it was cut
    short by '<' or the end of the text. [post] are the tokens after the tag's
    inner tokens. *)
Definition ste_of (post : list token) : option nat :=
  match post with
  | k :: _ => if token_eqb (tk_type k) StartTagSelfClose
                 || (token_eqb (tk_type k) StartTagClose && (tk_off k <? tk_end k))
              then Some (tk_end k) else None
  | [] => None
  end.

(** [start_of t done ts n]: among the tokens [ts] of the text there is the start
    tag of [n], and the name, attributes and start tag end of [n] are those of
    that tag.  [done]: the tag is followed by further tokens. *)
Definition start_of (t : str) (done : bool) (ts : list token) (n : node) : Prop :=
  exists pre op ks post,
    ts = pre ++ op :: ks ++ post /\
    tk_type op = StartTagOpen /\ tk_off op = n_start n /\
    Forall (fun k => in_tag (tk_state k) = true) ks /\
    (done = true -> post <> []) /\
    (forall k r, post = k :: r -> in_tag (tk_state k) = false) /\
    n_tag n = tag_in t ks /\
    (forall x, attr_get x (n_attrs n) = attr_in t x ks) /\
    n_ste n = ste_of post.

(** The start tag of [n] ends with a token of type [ty]. *)
Definition ended (ts : list token) (n : node) (ty : token_type) : Prop :=
  exists k, In k ts /\ tk_type k = ty /\ tk_off k < tk_end k /\ n_ste n = Some (tk_end k).

Definition is_void (void : list str) (tag : option str) : bool :=
  match tag with Some x => is_void_element x void | None => false end.

(** The start tag of [n] is broken off at its end: the token after those of the tag
    is no part of it and ends where [n] ends. *)
Definition cut (ts : list token) (n : node) : Prop :=
  exists pre op ks k r, ts = pre ++ op :: ks ++ k :: r /\ tk_type op = StartTagOpen /\ tk_off op = n_start n /\
    Forall (fun x => in_tag (tk_state x) = true) ks /\ in_tag (tk_state k) = false /\
    tk_off k = n_end n /\ tk_end k = n_end n.

(** How a node ended. *)
Inductive closing (U : unicode) (t : str) (cs : bool) (void : list str) (ts : list token) (n : node) : Prop :=
| C_end e s name :              (* by an end tag of its name *)
    n_closed n = true -> n_ets n = Some e -> n_ste n = Some s -> is_void void (n_tag n) = false ->
    n_start n < s -> chain s (n_children n) e -> e < n_end n ->
    end_tag_text U t e name (n_end n) ->
    is_same_tag U cs n (option_map (norm U cs) name) = true ->
    ended ts n StartTagClose -> closing U t cs void ts n
| C_self :                      (* by '/>' *)
    n_closed n = true -> n_ets n = None -> n_ste n = Some (n_end n) -> n_children n = [] ->
    ended ts n StartTagSelfClose -> closing U t cs void ts n
| C_void :                      (* a void element, by its '>' *)
    n_closed n = true -> n_ets n = None -> n_ste n = Some (n_end n) -> n_children n = [] ->
    is_void void (n_tag n) = true -> ended ts n StartTagClose -> closing U t cs void ts n
| C_open s :                    (* never closed: ends before an end tag of an outer element or at the end *)
    n_closed n = false -> n_ets n = None -> n_ste n = Some s -> is_void void (n_tag n) = false ->
    n_start n < s -> chain s (n_children n) (n_end n) ->
    (n_end n = length t \/ is_prefix (bs "</") (skipn (n_end n) t) = true) ->
    ended ts n StartTagClose -> closing U t cs void ts n
| C_cut :                       (* the start tag itself is cut short *)
    n_closed n = false -> n_ets n = None -> n_ste n = None -> n_children n = [] ->
    (n_end n = length t \/ nth_error t (n_end n) = Some LT) ->
    (n_end n = length t \/ cut ts n) -> closing U t cs void ts n.

Record node_ok (U : unicode) (t : str) (cs : bool) (void : list str) (done : bool)
       (ts : list token) (n : node) : Prop := {
  ok_start : start_of t done ts n;
  ok_lt : nth_error t (n_start n) = Some LT;
  ok_span : n_start n < n_end n /\ n_end n <= length t;
  ok_tag : tag_text U t (n_start n) (n_tag n);
  ok_keys : NoDup (map fst (n_attrs n));
  ok_close : closing U t cs void ts n
}.
