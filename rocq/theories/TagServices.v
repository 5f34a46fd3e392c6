(** * TagServices: rename, linked editing, matching tag, highlights, symbols.
    /repo/src/services/html_{rename,linked_editing,matching_tag_position,highlight,symbols}.rs *)
From Verif Require Import Base Stream Scanner Tree TextDoc.

(** [lo <= o && o <= hi] *)
Definition between (lo o hi : nat) : bool := (lo <=? o) && (o <=? hi).

(** The tests shared by the services: is the offset in the (presumed) name of the
    start tag, of the end tag at [ets]; "<".len() = 1, "</".len() = 2. *)
Definition in_start_name (n : node) (len o : nat) : bool :=
  between (n_start n + 1) o (n_start n + 1 + len).
Definition in_end_name (ets len o : nat) : bool := between (ets + 2) o (ets + 2 + len).

(** find_linked_editing_ranges, html_linked_editing.rs:6-38 *)
Definition find_linked_editing_ranges (d : textdoc) (p : position) (roots : list node)
  : res (option (list range)) :=
  let o := offset_at d p in
  do r <- find_node_at roots o;
  match r with
  | None => Ok None
  | Some (n, _) =>
      let len := match n_tag n with Some x => length x | None => 0 end in
      match n_ets n with
      | None => Ok None
      | Some ets =>
          if in_start_name n len o || in_end_name ets len o then
            Ok (Some [range_at d (n_start n + 1) (n_start n + 1 + len);
                      range_at d (ets + 2) (ets + 2 + len)])
          else Ok None
      end
  end.

(** find_matching_tag_position, html_matching_tag_position.rs:6-31 *)
Definition find_matching_tag_position (d : textdoc) (p : position) (roots : list node)
  : res (option position) :=
  let o := offset_at d p in
  do r <- find_node_at roots o;
  match r with
  | None => Ok None
  | Some (n, _) =>
      match n_tag n with
      | None => Ok None
      | Some x =>
          match n_ets n with
          | None => Ok None
          | Some ets =>
              if in_start_name n (length x) o then
                do a <- usub o 1; do b <- usub a (n_start n);
                Ok (Some (position_at d (b + ets + 2)))
              else if in_end_name ets (length x) o then
                do a <- usub o 2; do b <- usub a ets;
                Ok (Some (position_at d (b + n_start n + 1)))
              else Ok None
          end
      end
  end.

(** is_within_tag_range, html_rename.rs:46-56 *)
Definition is_within_tag_range (n : node) (o : nat) (x : str) : bool :=
  match n_ets n with
  | Some ets => in_end_name ets (length x) o
  | None => false
  end || in_start_name n (length x) o.

(** do_rename, html_rename.rs:8-44.  The uri is left out: the edit has this one
    document as its only key. *)
Definition do_rename (d : textdoc) (p : position) (new_name : str) (roots : list node)
  : res (option (list (range * str))) :=
  let o := offset_at d p in
  do r <- find_node_at roots o;
  match r with
  | None => Ok None
  | Some (n, _) =>
      match n_tag n with
      | None => Ok None
      | Some x =>
          if negb (is_within_tag_range n o x) then Ok None
          else Ok (Some ((range_at d (n_start n + 1) (n_start n + 1 + length x), new_name) ::
                         match n_ets n with
                         | Some ets => [(range_at d (ets + 2) (ets + 2 + length x), new_name)]
                         | None => []
                         end))
      end
  end.

(** is_before_or_equal and covers, html_highlight.rs:58-64 *)
Definition is_before_or_equal (a b : position) : bool :=
  (line a <? line b) || ((line a =? line b) && (character a <=? character b)).
Definition covers (r : range) (p : position) : bool :=
  is_before_or_equal (r_start r) p && is_before_or_equal p (r_end r).

(** The loop of get_tag_name_range, html_highlight.rs:79-90. [None]: EOS. *)
Fixpoint scan_to (U : unicode) (t : str) (cs : bool) (fuel : nat) (ty : token_type) (sc : scanner)
  : res (option (nat * nat)) :=
  match fuel with
  | 0 => OutOfFuel
  | S fuel' =>
      do sc' <- scan U t false cs sc;
      if token_eqb (tok sc') EOS then Ok None
      else if token_eqb (tok sc') ty then Ok (Some (tok_off sc', pos sc'))
      else scan_to U t cs fuel' ty sc'
  end.
(** get_tag_name_range, html_highlight.rs:66-91 *)
Definition get_tag_name_range (U : unicode) (d : textdoc) (cs : bool) (ty : token_type) (start : nat)
  : res (option range) :=
  do r <- scan_to U (d_text d) cs (scan_fuel (d_text d)) ty (scanner_new start WithinContent);
  Ok (match r with Some (a, b) => Some (range_at d a b) | None => None end).

Definition opt_covers (r : option range) (p : position) : bool :=
  match r with Some x => covers x p | None => false end.
Definition opt_list {A} (r : option A) : list A :=
  match r with Some x => [x] | None => [] end.

(** find_document_highlights, html_highlight.rs:9-56. Every highlight has kind READ;
    only the ranges are kept. *)
Definition find_document_highlights (U : unicode) (d : textdoc) (p : position) (roots : list node) (cs : bool)
  : res (list range) :=
  do r <- find_node_at roots (offset_at d p);
  match r with
  | None => Ok []
  | Some (n, _) =>
      match n_tag n with
      | None => Ok []
      | Some _ =>
          do s <- get_tag_name_range U d cs StartTag (n_start n);
          do e <- (if is_self_closing n then Ok None
                   else do ets <- unwrap (n_ets n); get_tag_name_range U d cs EndTag ets);
          if opt_covers s p || opt_covers e p then Ok (opt_list s ++ opt_list e) else Ok []
      end
  end.

(** ** Symbols *)
(** str::replace of a one-byte pattern by the empty string. *)
Definition remove_byte (b : N) (s : str) : str := filter (fun x => negb (N.eqb x b)) s.
(** str::split_ascii_whitespace: the maximal runs without U+0009, U+000A, U+000C,
    U+000D, U+0020 ([is_ws]). [w] is the word read so far, reversed. *)
Fixpoint split_ws (w : str) (s : str) : list str :=
  match s with
  | [] => match w with [] => [] | _ => [rev w] end
  | b :: r => if is_ws b then match w with [] => split_ws [] r | _ => rev w :: split_ws [] r end
              else split_ws (b :: w) r
  end.
(** node_to_name, html_symbols.rs:91-117 *)
Definition node_to_name (n : node) : str :=
  match n_tag n with
  | None => bs "?"
  | Some name =>
      match n_attrs n with
      | [] => name
      | _ :: _ =>
          let value k := match attr_get k (n_attrs n) with Some a => a_value a | None => None end in
          let unquote s := remove_byte SQUOTE (remove_byte DQUOTE s) in
          name ++
          match value (bs "id") with Some v => bs "#" ++ unquote v | None => [] end ++
          match value (bs "class") with
          | Some v => concat (map (fun w => bs "." ++ w) (split_ws [] (unquote v)))
          | None => []
          end
      end
  end.

(** DocumentSymbol: the fields that vary. selection_range is a copy of range. *)
Inductive symbol := mkSymbol { s_name : str; s_range : range; s_selection : range; s_children : list symbol }.
(** provide_file_symbols_internal, html_symbols.rs:34-64 *)
Fixpoint node_symbol (d : textdoc) (n : node) : symbol :=
  match n with
  | mkNode tag start end_ ch cl ste ets attrs =>
      let r := range_at d start end_ in
      mkSymbol (node_to_name n) r r (map (node_symbol d) ch)
  end.
(** find_document_symbols2, html_symbols.rs:21-32 *)
Definition find_document_symbols2 (d : textdoc) (roots : list node) : list symbol :=
  map (node_symbol d) roots.

(** SymbolInformation: the fields that vary. *)
Record symbol_info := mkInfo { i_name : str; i_range : range; i_container : option str }.
(** walk, html_symbols.rs:66-89 *)
Fixpoint walk (parent : option str) (s : symbol) : list symbol_info :=
  match s with
  | mkSymbol name r _ ch => mkInfo name r parent :: flat_map (walk (Some name)) ch
  end.
(** find_document_symbols, html_symbols.rs:6-19 *)
Definition find_document_symbols (d : textdoc) (roots : list node) : list symbol_info :=
  flat_map (walk None) (find_document_symbols2 d roots).
