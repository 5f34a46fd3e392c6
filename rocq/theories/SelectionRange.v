(** * SelectionRange: /repo/src/services/html_selection_range.rs *)
From Verif Require Import Base Stream Scanner Tree TextDoc.

(** get_content(Some(range)) of the document: the text between two positions. *)
Definition get_content (d : textdoc) (r : range) : res str :=
  slice (d_text d) (offset_at d (r_start r)) (offset_at d (r_end r)).

(** get_node_ranges, 163-172 *)
Definition get_node_ranges (n : node) : list (nat * nat) :=
  match n_ste n, n_ets n with
  | Some a, Some b => if a <? b then [(a, b); (n_start n, n_end n)] else [(n_start n, n_end n)]
  | _, _ => [(n_start n, n_end n)]
  end.
(** get_all_parent_tag_ranges, 140-161; [ps] is outermost first, the loop pops the
    last one first. *)
Definition get_all_parent_tag_ranges (ps roots : list node) : list (nat * nat) :=
  flat_map get_node_ranges (rev ps) ++
  match roots with
  | [] => []
  | r :: _ => [(n_start r, n_end (last roots r))]
  end.

(** [s.get(0..1)] and [s.get(s.len()-1..)] compared with a quote character: as a
    quote is ASCII, a comparison of the first and the last byte. The subtraction
    [value_text.len() - 1] is modelled by [usub]. *)
Definition first_is (b : N) (s : str) : bool := match s with x :: _ => N.eqb x b | [] => false end.
Definition last_is (b : N) (s : str) : bool := first_is b (rev s).

(** The local variables of get_attribute_level_ranges (203-206). *)
Record astate := mkA { as_result : list (nat * nat); as_inside : bool; as_start : nat }.
Section Sel.
Variables (U : unicode) (x : str) (cs : bool) (rel : nat).
(** One iteration of the loop 208-258 ([x] is curr_node_text, [rel] relative_offset). *)
Definition attr_step (sc : scanner) (s : astate) : res astate :=
  let o := tok_off sc in let e := pos sc in
  match tok sc with
  | AttributeName =>
      if rel <? o then Ok (mkA (as_result s) false (as_start s))
      else Ok (mkA (if rel <=? e then (o, e) :: as_result s else as_result s) true o)
  | AttributeValue =>
      if as_inside s then
        do v <- token_text x sc;
        if rel <? o then Ok (mkA (as_result s ++ [(as_start s, e)]) true (as_start s))
        else if rel <=? e then
          let r := (o, e) :: as_result s in
          do _ <- usub (length v) 1;
          do r' <- (if (first_is DQUOTE v && last_is DQUOTE v) || (first_is SQUOTE v && last_is SQUOTE v)
                    then do e1 <- usub e 1;
                         Ok (if (o + 1 <=? rel) && (rel <=? e1) then (o + 1, e1) :: r else r)
                    else Ok r);
          Ok (mkA (r' ++ [(as_start s, e)]) true (as_start s))
        else Ok s
      else Ok s
  | _ => Ok s
  end.
Fixpoint attr_loop (fuel : nat) (sc : scanner) (s : astate) : res (list (nat * nat)) :=
  match fuel with
  | 0 => OutOfFuel
  | S fuel' =>
      do sc' <- scan U x false cs sc;
      if token_eqb (tok sc') EOS then Ok (as_result s)
      else do s' <- attr_step sc' s; attr_loop fuel' sc' s'
  end.
End Sel.
(** get_attribute_level_ranges, 174-263 *)
Definition get_attribute_level_ranges (U : unicode) (d : textdoc) (n : node) (o : nat) (cs : bool)
  : res (list (nat * nat)) :=
  do x <- get_content d (range_at d (n_start n) (n_end n));
  do rel <- usub o (n_start n);
  do l <- attr_loop U x cs rel (scan_fuel x) (scanner_new 0 WithinContent) (mkA [] false 0);
  Ok (map (fun p => (fst p + n_start n, snd p + n_start n)) l).

(** get_applicable_ranges, 64-138 *)
Definition get_applicable_ranges (U : unicode) (d : textdoc) (p : position) (roots : list node) (cs : bool)
  : res (list (nat * nat)) :=
  let o := offset_at d p in
  do r <- find_node_at roots o;
  match r with
  | None => Ok (get_all_parent_tag_ranges [] roots)
  | Some (n, ps) =>
      let result := get_all_parent_tag_ranges ps roots in
      match n_ste n, n_ets n with
      | Some ste, None =>
          if negb (ste =? n_end n) then Ok [(n_start n, n_end n)]
          else
            do c <- usub ste 2;
            do text <- get_content d (range_at d c ste);
            do e <- (if beq text (bs "/>") then usub ste 2 else usub ste 1);
            do al <- get_attribute_level_ranges U d n o cs;
            Ok (al ++ (n_start n + 1, e) :: result)
      | None, _ => Ok result
      | Some ste, Some ets =>
          let result := (n_start n, n_end n) :: result in
          if (n_start n <? o) && (o <? ste) then
            do e <- usub ste 1;
            do al <- get_attribute_level_ranges U d n o cs;
            Ok (al ++ (n_start n + 1, e) :: result)
          else if (ste <=? o) && (o <=? ets) then Ok ((ste, ets) :: result)
          else if ets + 2 <=? o then
            do e <- usub (n_end n) 1; Ok ((ets + 2, e) :: result)
          else Ok result
      end
  end.

(** The loop of get_selection_range (33-53), from the last range to the first: a
    range equal to the one before is left out. The chain is kept inner first. *)
Definition pair_eqb (a b : nat * nat) : bool := (fst a =? fst b) && (snd a =? snd b).
Fixpoint chain (prev : option (nat * nat)) (l : list (nat * nat)) (acc : list (nat * nat)) : list (nat * nat) :=
  match l with
  | [] => acc
  | r :: l' =>
      let same := match prev with Some v => pair_eqb r v | None => false end in
      chain (Some r) l' (if same then acc else r :: acc)
  end.
(** get_selection_range, 23-62: the range, its parent, the parent's parent, ... *)
Definition get_selection_range (U : unicode) (d : textdoc) (p : position) (roots : list node) (cs : bool)
  : res (list range) :=
  do l <- get_applicable_ranges U d p roots cs;
  Ok (match chain None (rev l) [] with
      | [] => [mkRange p p]
      | c => map (fun r => range_at d (fst r) (snd r)) c
      end).
(** get_selection_ranges, 11-21 *)
Fixpoint get_selection_ranges (U : unicode) (d : textdoc) (ps : list position) (roots : list node) (cs : bool)
  : res (list (list range)) :=
  match ps with
  | [] => Ok []
  | p :: r => do c <- get_selection_range U d p roots cs;
              do l <- get_selection_ranges U d r roots cs; Ok (c :: l)
  end.
