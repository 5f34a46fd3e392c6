(** * Folding: /repo/src/services/html_folding.rs *)
From Verif Require Import Base Stream Scanner Tree Parser TextDoc.

(** ** REG_REGION, html_folding.rs:14: the alternation of [^\s*#(region\b)] and
    [(endregion\b)]. The first alternative is anchored, so when it matches it is
    the leftmost match; the second matches anywhere. *)
(** [\b] after a word character: the next character, if any, is no word character. *)
Definition word_ends (U : unicode) (s : str) : bool :=
  match decode1 s with Some (c, _) => negb (is_word U c) | None => true end.
Definition region_start (U : unicode) (s : str) : bool :=
  let n := char_run is_uspace s in
  is_prefix (bs "#region") (skipn n s) && word_ends U (skipn (n + 7) s).
Fixpoint region_end (U : unicode) (s : str) : bool :=
  (is_prefix (bs "endregion") s && word_ends U (skipn 9 s)) ||
  match s with [] => false | _ :: r => region_end U r end.

(** lsp_types::FoldingRange: the fields that are set. *)
Inductive fold_kind := KRegion | KComment.
Record frange := mkF { f_start : nat; f_end : nat; f_kind : option fold_kind }.

(** The local variables of get_folding_ranges (32-35). The stack is kept top
    first. [f_prev = None] stands for u32::MAX (no line has that number). *)
Record fstate := mkFS {
  f_ranges : list frange;
  f_stack : list (nat * str);
  f_last : option str;
  f_prev : option nat
}.
Definition fstate0 : fstate := mkFS [] [] None None.

(** The loops of 55-64 and 87-96: the topmost entry whose tag satisfies [f], and
    the stack below it (truncate). *)
Fixpoint find_entry (f : str -> bool) (stack : list (nat * str)) : option (nat * list (nat * str)) :=
  match stack with
  | [] => None
  | (l, tag) :: r => if f tag then Some (l, r) else find_entry f r
  end.
Definition differs (o : option nat) (n : nat) : bool :=
  match o with Some m => negb (m =? n) | None => true end.
Definition nonempty_str (s : str) : bool := match s with [] => false | _ => true end.

Section Folding.
Variables (U : unicode) (d : textdoc) (cs : bool) (void : list str).
Let t := d_text d.
Definition line_at (o : nat) : nat := line (position_at d o).

(** One iteration of the loop 37-130, on the scanner that returned the token. *)
Definition fold_step (sc : scanner) (s : fstate) : res fstate :=
  match tok sc with
  | StartTag =>
      do x <- token_text t sc;
      Ok (mkFS (f_ranges s) ((line_at (tok_off sc), x) :: f_stack s) (Some x) (f_prev s))
  | EndTag =>
      do x <- token_text t sc;
      Ok (mkFS (f_ranges s) (f_stack s) (Some x) (f_prev s))
  | StartTagClose | EndTagClose | StartTagSelfClose =>
      if negb (token_eqb (tok sc) StartTagClose) ||
         match f_last s with Some x => is_void_element x void | None => false end
      then
        match find_entry (fun x => match f_last s with Some y => beq x y | None => false end) (f_stack s) with
        | None => Ok s
        | Some (l, below) =>
            let e := line_at (pos sc) in
            if (l + 1 <? e) && differs (f_prev s) l
            then Ok (mkFS (f_ranges s ++ [mkF l (e - 1) None]) below (f_last s) (Some l))
            else Ok (mkFS (f_ranges s) below (f_last s) (f_prev s))
        end
      else Ok s
  | Comment =>
      let l := line_at (tok_off sc) in
      do x <- token_text t sc;
      if region_start U x then
        Ok (mkFS (f_ranges s) ((l, []) :: f_stack s) (f_last s) (f_prev s))
      else if region_end U x then
        match find_entry (fun x => negb (nonempty_str x)) (f_stack s) with
        | None => Ok s
        | Some (l', below) =>
            if (l' <? l) && differs (f_prev s) l'
            then Ok (mkFS (f_ranges s ++ [mkF l' l (Some KRegion)]) below (f_last s) (Some l'))
            else Ok (mkFS (f_ranges s) below (f_last s) (f_prev s))
        end
      else
        let e := line_at (pos sc + 3) in
        if l <? e
        then Ok (mkFS (f_ranges s ++ [mkF l e (Some KComment)]) (f_stack s) (f_last s) (Some l))
        else Ok s
  | _ => Ok s
  end.

Fixpoint fold_loop (fuel : nat) (sc : scanner) (s : fstate) : res (list frange) :=
  match fuel with
  | 0 => OutOfFuel
  | S fuel' =>
      do sc' <- scan U t false cs sc;
      if token_eqb (tok sc') EOS then Ok (f_ranges s)
      else do s' <- fold_step sc' s; fold_loop fuel' sc' s'
  end.
Definition all_ranges : res (list frange) :=
  fold_loop (scan_fuel t) (scanner_new 0 WithinContent) fstate0.
End Folding.

(** ** limit_ranges, 140-223 *)
(** The order of sort_by (141-148), a stable sort. *)
Definition frange_le (a b : frange) : bool :=
  (f_start a <? f_start b) || ((f_start a =? f_start b) && (f_end a <=? f_end b)).
Fixpoint insert_range (x : frange) (l : list frange) : list frange :=
  match l with
  | [] => [x]
  | y :: r => if frange_le x y then x :: l else y :: insert_range x r
  end.
Definition sort_ranges (l : list frange) : list frange := fold_right insert_range [] l.

(** [while v.len() < n { v.push(0) }] *)
Definition pad (n : nat) (v : list nat) : list nat := v ++ repeat 0 (n - length v).
Fixpoint update (f : nat -> nat) (i : nat) (v : list nat) : list nat :=
  match v, i with
  | [], _ => []
  | x :: r, 0 => f x :: r
  | x :: r, S i' => x :: update f i' r
  end.
(** set_nesting_level, 225-241 *)
Definition set_nesting_level (index level : nat) (lc : list nat * list nat) : list nat * list nat :=
  let '(levels, counts) := lc in
  (update (fun _ => level) index (pad (index + 1) levels),
   if level <? 30 then update S level (pad (level + 1) counts) else counts).

(** The while loop of 175-177, after the first pop of 174: [previous] top first;
    the new [top] and the rest. *)
Fixpoint pop_until (start : nat) (previous : list frange) : option frange * list frange :=
  match previous with
  | [] => (None, [])
  | x :: r => if f_end x <? start then pop_until start r else (Some x, r)
  end.
(** The loop of 158-190. *)
Fixpoint level_loop (i : nat) (l : list frange) (top : option frange) (previous : list frange)
         (lc : list nat * list nat) : list nat * list nat :=
  match l with
  | [] => lc
  | entry :: r =>
      match top with
      | None => level_loop (S i) r (Some entry) previous (set_nesting_level i 0 lc)
      | Some tp =>
          if f_start tp <? f_start entry then
            if f_end entry <=? f_end tp then
              level_loop (S i) r (Some entry) (tp :: previous)
                         (set_nesting_level i (S (length previous)) lc)
            else if f_end tp <? f_start entry then
              let '(top', rest) := pop_until (f_start entry) previous in
              let previous' := match top' with Some x => x :: rest | None => rest end in
              level_loop (S i) r (Some entry) previous'
                         (set_nesting_level i (length previous') lc)
            else level_loop (S i) r top previous lc
          else level_loop (S i) r top previous lc
      end
  end.
(** The loop of 192-203: (max_level, entries). *)
Fixpoint count_loop (limit i entries : nat) (counts : list nat) : nat * nat :=
  match counts with
  | [] => (0, entries)
  | n :: r => if (0 <? n) && (limit <? n + entries) then (i, entries)
              else count_loop limit (S i) (entries + n) r
  end.
(** The loop of 205-220. *)
Fixpoint pick_loop (limit max_level i entries : nat) (levels : list nat) (l : list frange)
  : res (list frange) :=
  match l with
  | [] => Ok []
  | x :: r =>
      match nth_error levels i with
      | None => Panic PIndex
      | Some lv =>
          if lv <=? max_level then
            if lv =? max_level then
              do rest <- pick_loop limit max_level (S i) (S entries) levels r;
              Ok (if entries <? limit then x :: rest else rest)
            else do rest <- pick_loop limit max_level (S i) entries levels r; Ok (x :: rest)
          else pick_loop limit max_level (S i) entries levels r
      end
  end.
Definition limit_ranges (ranges : list frange) (limit : nat) : res (list frange) :=
  let l := sort_ranges ranges in
  let '(levels, counts) := level_loop 0 l None [] ([], []) in
  let '(max_level, entries) := count_loop limit 0 0 counts in
  pick_loop limit max_level 0 entries levels l.

(** get_folding_ranges, 17-138; [limit = None] is usize::MAX. *)
Definition get_folding_ranges (U : unicode) (d : textdoc) (limit : option nat) (void : list str) (cs : bool)
  : res (list frange) :=
  do ranges <- all_ranges U d cs void;
  match limit with
  | Some n => if n <? length ranges then limit_ranges ranges n else Ok ranges
  | None => Ok ranges
  end.
