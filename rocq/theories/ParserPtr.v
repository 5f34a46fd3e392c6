(** * ParserPtr: /repo/src/parser/html_parse.rs:38-165 with its raw pointers

    The same code as Parser.v, on the level of memory: nodes lie in the buffers of
    [Vec<Node>]s, [cur] and [parent_list] hold addresses, and pushing a child may move
    the buffer it is pushed to. *)
From Verif Require Import Base Stream Scanner Tree Parser.

(** ** Memory *)
(** A node as it lies in memory: its fields other than [children] (here always []),
    and the buffer of its Vec [children]. *)
Record cell := mkCell { c_node : node; c_vec : nat }.
(** Buffers by number; a buffer that is not allocated (any more) is [None]. A Vec that is
    empty owns an empty buffer here, in Rust none; nothing points into it. Numbers are
    not used twice, so that an address in a freed buffer stays recognisable. *)
Record mem := mkMem { buffers : nat -> option (list cell); next : nat }.
(** An address: buffer and index *)
Definition ptr : Type := nat * nat.
Definition load (m : mem) (p : ptr) : option cell :=
  match buffers m (fst p) with Some l => nth_error l (snd p) | None => None end.
Definition set_buffer (b : nat) (v : option (list cell)) (f : nat -> option (list cell)) : nat -> option (list cell) :=
  fun b' => if b' =? b then v else f b'.
Fixpoint set_nth (i : nat) (x : cell) (l : list cell) : list cell :=
  match l, i with
  | [], _ => []
  | _ :: r, 0 => x :: r
  | y :: r, S i' => y :: set_nth i' x r
  end.

(** Results: as [res], or an access through an address at which there is no node. *)
Inductive mres (A : Type) := MOk (a : A) | MPanic (r : panic_reason) | MFuel | MDangling.
Arguments MOk {A} _. Arguments MPanic {A} _. Arguments MFuel {A}. Arguments MDangling {A}.
Definition mbind {A B} (x : mres A) (f : A -> mres B) : mres B :=
  match x with MOk a => f a | MPanic r => MPanic r | MFuel => MFuel | MDangling => MDangling end.
Notation "'mdo' x <- e ; k" := (mbind e (fun x => k)) (at level 200, x name, e at level 100, k at level 200).
Definition lift {A} (x : res A) : mres A :=
  match x with Ok a => MOk a | Panic r => MPanic r | OutOfFuel => MFuel end.

(** Reading through [p] *)
Definition deref (m : mem) (p : ptr) : mres cell := match load m p with Some c => MOk c | None => MDangling end.
(** Writing through [p] *)
Definition write (m : mem) (p : ptr) (c : cell) : mres mem :=
  match buffers m (fst p) with
  | Some l => if snd p <? length l
              then MOk (mkMem (set_buffer (fst p) (Some (set_nth (snd p) c l)) (buffers m)) (next m))
              else MDangling
  | None => MDangling
  end.
(** An assignment to fields of the node at [p] other than [children] *)
Definition assign (m : mem) (p : ptr) (f : node -> res node) : mres mem :=
  mdo c <- deref m p;
  mdo n <- lift (f (c_node c));
  write m p (mkCell n (c_vec c)).

Section Ptr.
Variable U : unicode.
Variable t : str.
Variable cs : bool.
Variable void : list str.
(** Whether a push moves the buffer: any policy of the allocator and of Vec. *)
Variable moves : mem -> ptr -> bool.

(** [p.children.push(child)] through the pointer, 61 *)
Definition push (m : mem) (p : ptr) (start : nat) : mres mem :=
  mdo c <- deref m p;
  match buffers m (c_vec c) with
  | None => MDangling
  | Some l =>
      let e := next m in
      let l' := l ++ [mkCell (node_new start (length t)) e] in
      let m1 := mkMem (set_buffer e (Some []) (buffers m)) (S e) in
      if moves m p then
        let b := next m1 in
        write (mkMem (set_buffer b (Some l') (set_buffer (c_vec c) None (buffers m1))) (S b)) p (mkCell (c_node c) b)
      else MOk (mkMem (set_buffer (c_vec c) (Some l') (buffers m1)) (next m1))
  end.
(** [&mut p.children[i]] through the pointer, 63 *)
Definition child_ptr (m : mem) (p : ptr) (i : nat) : mres ptr :=
  mdo c <- deref m p;
  match buffers m (c_vec c) with
  | None => MDangling
  | Some l => if i <? length l then MOk (c_vec c, i) else MPanic PIndex
  end.
(** [p.children.len()] through the pointer, 60 *)
Definition child_count (m : mem) (p : ptr) : mres nat :=
  mdo c <- deref m p;
  match buffers m (c_vec c) with None => MDangling | Some l => MOk (length l) end.

(** The local variables, 47-53; [q_parents] is parent_list, innermost first. *)
Record qstate := mkQ {
  q_mem : mem;
  q_cur : ptr;
  q_parents : list ptr;
  q_ets : option nat;
  q_etn : option str;
  q_pending : option str
}.
Definition with_mem (m : mem) (q : qstate) : qstate :=
  mkQ m (q_cur q) (q_parents q) (q_ets q) (q_etn q) (q_pending q).
Definition assign_cur (f : node -> res node) (q : qstate) : mres qstate :=
  mdo m <- assign (q_mem q) (q_cur q) f; MOk (with_mem m q).
(** [cur = parent_list.pop().unwrap()] *)
Definition qpop (q : qstate) : mres qstate :=
  match q_parents q with
  | [] => MPanic PUnwrap
  | p :: r => MOk (mkQ (q_mem q) p r (q_ets q) (q_etn q) (q_pending q))
  end.

(** 106-115 *)
Fixpoint qfind (m : mem) (p : ptr) (ps : list ptr) (name : option str) : mres (option nat) :=
  mdo c <- deref m p;
  match ps with
  | [] => MOk None
  | p' :: ps' => if is_same_tag U cs (c_node c) name then MOk (Some 0)
                 else mdo r <- qfind m p' ps' name; MOk (option_map S r)
  end.
(** 117-121 *)
Fixpoint qclose (k : nat) (q : qstate) : mres qstate :=
  match k with
  | 0 => MOk q
  | S k' =>
      mdo e <- lift (unwrap (q_ets q));
      mdo q1 <- assign_cur (fun n => Ok (set_closed false (set_end e n))) q;
      mdo q2 <- qpop q1;
      qclose k' q2
  end.

(** One iteration, 56-151 *)
Definition qstep (sc : scanner) (q : qstate) : mres qstate :=
  match tok sc with
  | StartTagOpen =>
      mdo len <- child_count (q_mem q) (q_cur q);
      mdo m <- push (q_mem q) (q_cur q) (tok_off sc);
      mdo c <- child_ptr m (q_cur q) len;
      MOk (mkQ m c (q_cur q :: q_parents q) (q_ets q) (q_etn q) (q_pending q))
  | StartTag =>
      mdo x <- lift (token_text t sc);
      assign_cur (fun n => Ok (set_tag (Some x) n)) q
  | StartTagClose =>
      match q_parents q with
      | [] => MOk q
      | _ :: _ =>
          mdo q <- assign_cur (fun n => Ok (set_end (pos sc) n)) q;
          if 0 <? pos sc - tok_off sc then
            mdo c <- deref (q_mem q) (q_cur q);
            mdo q <- assign_cur (fun n => Ok (set_ste (Some (pos sc)) n)) q;
            match n_tag (c_node c) with
            | Some tag => if is_void_element tag void
                          then mdo q <- assign_cur (fun n => Ok (set_closed true n)) q; qpop q
                          else MOk q
            | None => MOk q
            end
          else qpop q
      end
  | StartTagSelfClose =>
      match q_parents q with
      | [] => MOk q
      | _ :: _ =>
          mdo q <- assign_cur (fun n => Ok (set_ste (Some (pos sc)) (set_end (pos sc) (set_closed true n)))) q;
          qpop q
      end
  | EndTagOpen =>
      MOk (mkQ (q_mem q) (q_cur q) (q_parents q) (Some (tok_off sc)) None (q_pending q))
  | EndTag =>
      mdo x <- lift (token_text t sc);
      MOk (mkQ (q_mem q) (q_cur q) (q_parents q) (q_ets q) (Some (if cs then x else lower U x)) (q_pending q))
  | EndTagClose =>
      mdo r <- qfind (q_mem q) (q_cur q) (q_parents q) (q_etn q);
      match r with
      | None => MOk q
      | Some k =>
          mdo q <- qclose k q;
          mdo q <- assign_cur (fun n => Ok (set_end (pos sc) (set_ets (q_ets q) (set_closed true n)))) q;
          qpop q
      end
  | AttributeName =>
      mdo x <- lift (token_text t sc);
      mdo q <- assign_cur (fun n => Ok (set_attrs (attr_insert x (mkAttr None (tok_off sc)) (n_attrs n)) n)) q;
      MOk (mkQ (q_mem q) (q_cur q) (q_parents q) (q_ets q) (q_etn q) (Some x))
  | DelimiterAssign =>
      match q_pending q with
      | Some a => assign_cur (set_attr_value [] a) q
      | None => MOk q
      end
  | AttributeValue =>
      mdo x <- lift (token_text t sc);
      match q_pending q with
      | Some a =>
          mdo q <- assign_cur (set_attr_value x a) q;
          MOk (mkQ (q_mem q) (q_cur q) (q_parents q) (q_ets q) (q_etn q) None)
      | None => MOk q
      end
  | _ => MOk q
  end.

(** The main loop, 55-153 *)
Fixpoint qloop (fuel : nat) (sc : scanner) (q : qstate) : mres qstate :=
  match fuel with
  | 0 => MFuel
  | S fuel' =>
      mdo sc' <- lift (scan U t true cs sc);
      if token_eqb (tok sc') EOS then MOk q
      else mdo q' <- qstep sc' q; qloop fuel' sc' q'
  end.
(** The closing loop, 154-158 *)
Fixpoint qclose_all (m : mem) (p : ptr) (ps : list ptr) : mres mem :=
  match ps with
  | [] => MOk m
  | p' :: r =>
      mdo m' <- assign m p (fun n => Ok (set_closed false (set_end (length t) n)));
      qclose_all m' p' r
  end.
(** html_document is a local variable: buffer 0, which is not a Vec's and never moves;
    its Vec of children is buffer 1. *)
Definition doc_ptr : ptr := (0, 0).
Definition mem0 : mem :=
  mkMem (set_buffer 0 (Some [mkCell (node_new 0 (length t)) 1]) (set_buffer 1 (Some []) (fun _ => None))) 2.
Definition q0 : qstate := mkQ mem0 doc_ptr [] None None None.
(** parse_html_document: the memory and the buffer of the roots *)
Definition qparse : mres (mem * list cell) :=
  mdo q <- qloop (scan_fuel t) (scanner_new 0 WithinContent) q0;
  mdo m <- qclose_all (q_mem q) (q_cur q) (q_parents q);
  mdo c <- deref m doc_ptr;
  match buffers m (c_vec c) with None => MDangling | Some l => MOk (m, l) end.
End Ptr.
