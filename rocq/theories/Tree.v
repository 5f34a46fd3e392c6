(** * Tree: nodes and document queries, /repo/src/parser/html_document.rs *)
From Verif Require Import Base Stream Scanner.

(** NodeAttribute, html_document.rs:32-38 *)
Record attribute := mkAttr { a_value : option str; a_off : nat }.

(** Node, html_document.rs:6-19.  The attribute HashMap is an association list
    with unique keys; its order stands for an arbitrary iteration order. *)
Inductive node := mkNode {
  n_tag : option str;
  n_start : nat;
  n_end : nat;
  n_children : list node;
  n_closed : bool;
  n_ste : option nat;    (* start_tag_end *)
  n_ets : option nat;    (* end_tag_start *)
  n_attrs : list (str * attribute)
}.

(** Node::new, 47-58 *)
Definition node_new (start end_ : nat) : node :=
  mkNode None start end_ [] false None None [].

(** Field updates. *)
Definition set_tag v n := mkNode v (n_start n) (n_end n) (n_children n) (n_closed n) (n_ste n) (n_ets n) (n_attrs n).
Definition set_end v n := mkNode (n_tag n) (n_start n) v (n_children n) (n_closed n) (n_ste n) (n_ets n) (n_attrs n).
Definition set_children v n := mkNode (n_tag n) (n_start n) (n_end n) v (n_closed n) (n_ste n) (n_ets n) (n_attrs n).
Definition set_closed v n := mkNode (n_tag n) (n_start n) (n_end n) (n_children n) v (n_ste n) (n_ets n) (n_attrs n).
Definition set_ste v n := mkNode (n_tag n) (n_start n) (n_end n) (n_children n) (n_closed n) v (n_ets n) (n_attrs n).
Definition set_ets v n := mkNode (n_tag n) (n_start n) (n_end n) (n_children n) (n_closed n) (n_ste n) v (n_attrs n).
Definition set_attrs v n := mkNode (n_tag n) (n_start n) (n_end n) (n_children n) (n_closed n) (n_ste n) (n_ets n) v.

(** HashMap operations on association lists with unique keys. *)
Fixpoint attr_get (k : str) (m : list (str * attribute)) : option attribute :=
  match m with
  | [] => None
  | (k', a) :: r => if beq k k' then Some a else attr_get k r
  end.
Fixpoint attr_insert (k : str) (a : attribute) (m : list (str * attribute))
  : list (str * attribute) :=
  match m with
  | [] => [(k, a)]
  | (k', a') :: r => if beq k k' then (k, a) :: r else (k', a') :: attr_insert k a r
  end.

(** attribute_names, 60-62 *)
Definition attribute_names (n : node) : list str := map fst (n_attrs n).

(** attribute_names_by_order, 64-72: a stable sort of the keys by offset
    (insertion sort: any stable sort gives the same result). The unwraps of
    [attributes.get(key)] on the map's own keys are modelled by sorting the
    entries themselves. *)
Fixpoint insert_by_off (x : str * attribute) (l : list (str * attribute)) :=
  match l with
  | [] => [x]
  | y :: r => if a_off (snd x) <=? a_off (snd y) then x :: l else y :: insert_by_off x r
  end.
Definition sort_by_off (l : list (str * attribute)) := fold_right insert_by_off [] l.
Definition attribute_names_by_order (n : node) : list str :=
  map fst (sort_by_off (n_attrs n)).

(** is_self_closing, 74-76 *)
Definition is_self_closing (n : node) : bool :=
  match n_ets n with None => true | Some _ => false end.

(** is_same_tag, 79-91 *)
Definition is_same_tag (U : unicode) (cs : bool) (n : node) (target : option str) : bool :=
  match n_tag n with
  | None => match target with None => true | Some _ => false end
  | Some tag =>
      let tag := if cs then tag else lower U tag in
      match target with Some x => beq tag x | None => false end
  end.

(** last_child, 97-99 *)
Definition last_child (n : node) : option node := last (map Some (n_children n)) None.

(** The loop of find_node_before (106-112): number of leading children whose
    start is before [offset]; find_node_at (138-144) likewise with [<]. *)
Fixpoint idx_before (offset : nat) (l : list node) : nat :=
  match l with
  | [] => 0
  | c :: r => if offset <=? n_start c then 0 else S (idx_before offset r)
  end.
Fixpoint idx_at (offset : nat) (l : list node) : nat :=
  match l with
  | [] => 0
  | c :: r => if offset <? n_start c then 0 else S (idx_at offset r)
  end.

(** Height of a tree: fuel for the recursive searches (proved sufficient). *)
Fixpoint height (n : node) : nat :=
  match n with
  | mkNode _ _ _ ch _ _ _ _ => S (fold_right (fun c m => Nat.max (height c) m) 0 ch)
  end.

(** find_node_before, 101-131. Returns the node and the parent list (outermost
    first) that it pushed. *)
Fixpoint find_node_before_fuel (fuel : nat) (n : node) (offset : nat) : res (node * list node) :=
  match fuel with
  | 0 => OutOfFuel
  | S fuel' =>
      let idx := idx_before offset (n_children n) in
      match idx with
      | 0 => Ok (n, [])
      | S i =>
          match nth_error (n_children n) i with
          | None => Panic PIndex
          | Some child =>
              if n_start child <? offset then
                let go := do ' (r, ps) <- find_node_before_fuel fuel' child offset; Ok (r, n :: ps) in
                if offset <? n_end child then go
                else match last_child child with
                     | Some lc => if n_end lc =? n_end child then go else Ok (child, [n])
                     | None => Ok (child, [n])
                     end
              else Ok (n, [])
          end
      end
  end.
Definition find_node_before_in (n : node) (offset : nat) : res (node * list node) :=
  find_node_before_fuel (height n) n offset.

(** find_node_at, 133-154 *)
Fixpoint find_node_at_fuel (fuel : nat) (n : node) (offset : nat) : res (node * list node) :=
  match fuel with
  | 0 => OutOfFuel
  | S fuel' =>
      match idx_at offset (n_children n) with
      | 0 => Ok (n, [])
      | S i =>
          match nth_error (n_children n) i with
          | None => Panic PIndex
          | Some child =>
              if (n_start child <=? offset) && (offset <? n_end child) then
                do ' (r, ps) <- find_node_at_fuel fuel' child offset; Ok (r, n :: ps)
              else Ok (n, [])
          end
      end
  end.
Definition find_node_at_in (n : node) (offset : nat) : res (node * list node) :=
  find_node_at_fuel (height n) n offset.

(** find_token_type_in_node, 162-202. [usub] are the unsigned subtractions. *)
Definition find_token_type_in_node (n : node) (offset : nat) : res token_type :=
  if (offset <? n_start n) || (n_end n <=? offset) then Ok Unknown
  else
    do tag <- unwrap (n_tag n);
    if n_start n =? offset then Ok StartTagOpen
    else if offset <? n_start n + 1 + length tag then Ok StartTag
    else
      do ste <- unwrap (n_ste n);
      if ste <=? offset then
        match n_ets n with
        | Some ets =>
            if offset <? ets then Ok Content
            else if (offset =? ets) || (offset =? ets + 1) then Ok EndTagOpen
            else do e1 <- usub (n_end n) 1;
                 if offset <? e1 then Ok EndTag else Ok EndTagClose
        | None =>
            if ste =? n_end n then
              do e2 <- usub (n_end n) 2;
              if e2 <=? offset then Ok StartTagSelfClose else Ok Unknown
            else Ok Unknown
        end
      else if ste =? n_end n then
        do e2 <- usub ste 2;
        if e2 <=? offset then Ok StartTagSelfClose else Ok Unknown
      else
        do e1 <- usub ste 1;
        if e1 <=? offset then Ok StartTagClose else Ok Unknown.

(** HTMLDocument::find_node_before, 238-265 (roots: list of top-level nodes) *)
Definition find_node_before (roots : list node) (offset : nat)
  : res (option (node * list node)) :=
  match idx_before offset roots with
  | 0 => Ok None
  | S i =>
      match nth_error roots i with
      | None => Panic PIndex
      | Some child =>
          if n_start child <? offset then
            let go := do x <- find_node_before_in child offset; Ok (Some x) in
            if offset <? n_end child then go
            else match last_child child with
                 | Some lc => if n_end lc =? n_end child then go else Ok (Some (child, []))
                 | None => Ok (Some (child, []))
                 end
          else Ok None
      end
  end.

(** HTMLDocument::find_node_at, 271-291 *)
Definition find_node_at (roots : list node) (offset : nat)
  : res (option (node * list node)) :=
  match idx_at offset roots with
  | 0 => Ok None
  | S i =>
      match nth_error roots i with
      | None => Panic PIndex
      | Some child =>
          if (n_start child <=? offset) && (offset <? n_end child) then
            do x <- find_node_at_in child offset; Ok (Some x)
          else Ok None
      end
  end.

(** HTMLDocument::find_root_at, 293-300 *)
Fixpoint find_root_at (roots : list node) (offset : nat) : option node :=
  match roots with
  | [] => None
  | r :: rs => if offset <=? n_end r then Some r else find_root_at rs offset
  end.
