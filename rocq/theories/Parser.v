(** * Parser: /repo/src/parser/html_parse.rs:38-165 *)
From Verif Require Import Base Stream Scanner Tree.

(** Local variables of parse_html_document (47-53). [cur] is the node under the
    raw pointer [cur]; [parents] are the nodes of [parent_list], innermost first,
    each *without* the child currently being built (a zipper): in the code the
    child already sits at the end of its parent's [children] and is updated in
    place; here it is put there when it is popped.  (Property C22 relates the two
    on the level of pointers.) *)
Record pstate := mkP {
  cur : node;
  parents : list node;
  end_tag_start : option nat;
  end_tag_name : option str;
  pending : option str       (* pending_attribute *)
}.

Definition upd_cur (f : node -> node) (p : pstate) : pstate :=
  mkP (f (cur p)) (parents p) (end_tag_start p) (end_tag_name p) (pending p).

Definition add_child (par child : node) : node :=
  set_children (n_children par ++ [child]) par.

(** [cur = parent_list.pop().unwrap()] *)
Definition pop (p : pstate) : res pstate :=
  match parents p with
  | [] => Panic PUnwrap
  | par :: ps => Ok (mkP (add_child par (cur p)) ps (end_tag_start p) (end_tag_name p) (pending p))
  end.

(** HTMLDataManager::is_void_element, data_manager.rs:60-62 *)
Definition is_void_element (tag : str) (void : list str) : bool := existsb (beq tag) void.

Section Parse.
Variable U : unicode.
Variable t : str.
Variable cs : bool.            (* case_sensitive *)
Variable void : list str.      (* void_elements *)

(** The search of 106-115: how many nodes to pop before the matching open
    element is current; None when the search reaches the document node. *)
Fixpoint find_open (c : node) (ps : list node) (name : option str) : option nat :=
  match ps with
  | [] => None
  | p :: ps' => if is_same_tag U cs c name then Some 0
                else option_map S (find_open p ps' name)
  end.

(** The loop of 117-121: implicitly end [k] nodes at the start of the end tag. *)
Fixpoint close_inner (k : nat) (p : pstate) : res pstate :=
  match k with
  | 0 => Ok p
  | S k' =>
      do e <- unwrap (end_tag_start p);
      do p' <- pop (upd_cur (fun n => set_closed false (set_end e n)) p);
      close_inner k' p'
  end.

Definition set_attr_value (v : str) (k : str) (n : node) : res node :=
  do a <- unwrap (attr_get k (n_attrs n));
  Ok (set_attrs (attr_insert k (mkAttr (Some v) (a_off a)) (n_attrs n)) n).

(** One iteration of the loop body, 56-151, for the token held by [sc]. *)
Definition pstep (sc : scanner) (p : pstate) : res pstate :=
  match tok sc with
  | StartTagOpen =>
      Ok (mkP (node_new (tok_off sc) (length t)) (cur p :: parents p)
              (end_tag_start p) (end_tag_name p) (pending p))
  | StartTag =>
      do x <- token_text t sc;
      Ok (upd_cur (set_tag (Some x)) p)
  | StartTagClose =>
      match parents p with
      | [] => Ok p
      | _ :: _ =>
          let p := upd_cur (set_end (pos sc)) p in
          if 0 <? pos sc - tok_off sc then
            let p := upd_cur (set_ste (Some (pos sc))) p in
            match n_tag (cur p) with
            | Some tag => if is_void_element tag void
                          then pop (upd_cur (set_closed true) p)
                          else Ok p
            | None => Ok p
            end
          else pop p
      end
  | StartTagSelfClose =>
      match parents p with
      | [] => Ok p
      | _ :: _ =>
          pop (upd_cur (fun n => set_ste (Some (pos sc)) (set_end (pos sc) (set_closed true n))) p)
      end
  | EndTagOpen =>
      Ok (mkP (cur p) (parents p) (Some (tok_off sc)) None (pending p))
  | EndTag =>
      do x <- token_text t sc;
      Ok (mkP (cur p) (parents p) (end_tag_start p) (Some (if cs then x else lower U x)) (pending p))
  | EndTagClose =>
      match find_open (cur p) (parents p) (end_tag_name p) with
      | None => Ok p
      | Some k =>
          do p <- close_inner k p;
          pop (upd_cur (fun n => set_end (pos sc) (set_ets (end_tag_start p) (set_closed true n))) p)
      end
  | AttributeName =>
      do x <- token_text t sc;
      Ok (mkP (set_attrs (attr_insert x (mkAttr None (tok_off sc)) (n_attrs (cur p))) (cur p))
              (parents p) (end_tag_start p) (end_tag_name p) (Some x))
  | DelimiterAssign =>
      match pending p with
      | Some a => do n <- set_attr_value [] a (cur p); Ok (upd_cur (fun _ => n) p)
      | None => Ok p
      end
  | AttributeValue =>
      do x <- token_text t sc;
      match pending p with
      | Some a =>
          do n <- set_attr_value x a (cur p);
          Ok (mkP n (parents p) (end_tag_start p) (end_tag_name p) None)
      | None => Ok p
      end
  | _ => Ok p
  end.

(** The main loop, 55-153: scan a token, leave at EOS, otherwise process it. *)
Fixpoint parse_loop (fuel : nat) (sc : scanner) (p : pstate) : res pstate :=
  match fuel with
  | 0 => OutOfFuel
  | S fuel' =>
      do sc' <- scan U t true cs sc;
      if token_eqb (tok sc') EOS then Ok p
      else do p' <- pstep sc' p; parse_loop fuel' sc' p'
  end.

(** The closing loop, 154-158, down to the document node. *)
Fixpoint close_all (c : node) (ps : list node) : node :=
  match ps with
  | [] => c
  | par :: ps' => close_all (add_child par (set_closed false (set_end (length t) c))) ps'
  end.

(** parse_html_document, 38-165: the list of roots. *)
Definition parse : res (list node) :=
  do p <- parse_loop (scan_fuel t) (scanner_new 0 WithinContent)
            (mkP (node_new 0 (length t)) [] None None None);
  Ok (n_children (close_all (cur p) (parents p))).
End Parse.

(** The void tags of the built-in data set, sorted as get_void_elements returns
    them: entries with [void: Some(true)] of
    /repo/src/language_facts/web_custom_data.rs. *)
Definition html5_void : list str :=
  [bs "area"; bs "base"; bs "br"; bs "col"; bs "embed"; bs "hr"; bs "img"; bs "input";
   bs "link"; bs "meta"; bs "param"; bs "source"; bs "track"; bs "wbr"].
