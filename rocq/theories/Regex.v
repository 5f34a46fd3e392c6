(** * Regex: the regular expressions the code uses, read from their source text

    The regex crate is a dependency whose source is not in /repo. What is modelled is its documented
    meaning: a pattern is matched against a sequence of characters; of the matches that begin
    leftmost, the one is taken that a backtracking search finds first (first alternative first,
    repetitions and options greedy). Patterns: /repo/src/parser/html_scanner.rs:8-14,
    src/services/html_links.rs:15-19, html_folding.rs:14, html_completion.rs:30-31, html_hover.rs:27,
    html_formatter.rs:65,116, src/beautify/beautify_html.rs:119, src/utils/strings.rs:6. The part of
    the syntax modelled is what these patterns use. *)
From Verif Require Import Base Stream.

(** ** Syntax *)
Inductive citem :=
| CChar (c : N)
| CRange (a b : N)
| CSpace | CWord | CDigit   (* \s, \w, \d *)
| CPunct                    (* [:punct:] *)
| CNoBreak.                 (* . *)
Record cclass := mkClass { c_neg : bool; c_items : list citem }.
Inductive regex :=
| RNil
| RClass (c : cclass)
| RStar (c : cclass)        (* repetitions are of single characters only *)
| RSeq (a b : regex)
| RAlt (a b : regex)
| ROpt (a : regex)
| RGroup (n : nat) (a : regex)
| RBegin | REnd | RBound.   (* ^, $, \b *)

(** ** Reading a pattern *)
Definition is_hex_digit (c : N) : option N :=
  (if (48 <=? c) && (c <=? 57) then Some (c - 48)
   else if (65 <=? c) && (c <=? 70) then Some (c - 55)
   else if (97 <=? c) && (c <=? 102) then Some (c - 87) else None)%N.
(** What follows a backslash and stands for characters. *)
Definition p_escape (s : str) : option (citem * str) :=
  match s with
  | c :: r =>
      if N.eqb c 115 then Some (CSpace, r)
      else if N.eqb c 119 then Some (CWord, r)
      else if N.eqb c 100 then Some (CDigit, r)
      else if N.eqb c 110 then Some (CChar 10, r)
      else if N.eqb c 114 then Some (CChar 13, r)
      else if N.eqb c 120 then
        match r with
        | x :: y :: r' => match is_hex_digit x, is_hex_digit y with Some a, Some b => Some (CChar (16 * a + b), r') | _, _ => None end
        | _ => None
        end
      else if ascii_alnum c then None
      else Some (CChar c, r)
  | [] => None
  end.
Definition p_single (s : str) : option (citem * str) :=
  match s with
  | c :: r => if N.eqb c 92 then p_escape r else Some (CChar c, r)
  | [] => None
  end.
(** The rest of a bracketed class. *)
Fixpoint p_items (fuel : nat) (s : str) : option (list citem * str) :=
  match fuel with
  | 0 => None
  | S n =>
      if is_prefix (bs "]") s then Some ([], skipn 1 s)
      else if is_prefix (bs "[:punct:]") s
      then match p_items n (skipn 9 s) with Some (l, r) => Some (CPunct :: l, r) | None => None end
      else match p_single s with
           | None => None
           | Some (i, r) =>
               let range := match i with CChar a => if is_prefix (bs "-") r && negb (is_prefix (bs "-]") r) then Some a else None | _ => None end in
               match range with
               | Some a =>
                   match p_single (skipn 1 r) with
                   | Some (CChar b, r') => match p_items n r' with Some (l, r'') => Some (CRange a b :: l, r'') | None => None end
                   | _ => None
                   end
               | None => match p_items n r with Some (l, r') => Some (i :: l, r') | None => None end
               end
           end
  end.
Definition p_class (s : str) : option (cclass * str) :=
  let neg := is_prefix (bs "^") s in
  match p_items (S (length s)) (if neg then skipn 1 s else s) with
  | Some (l, r) => Some (mkClass neg l, r)
  | None => None
  end.
Definition one (i : citem) : cclass := mkClass false [i].
(** A literal, with flag [i] in any case: Unicode's simple folding relates the long s to s and the
    Kelvin sign to k; the other characters beyond ASCII fold to none of ASCII. *)
Definition literal (ci : bool) (c : N) : cclass :=
  if ci && ascii_alpha c then
    let l := ascii_lower c in
    mkClass false ([CChar l; CChar (ascii_upper l)] ++ (if N.eqb l 115 then [CChar 383] else if N.eqb l 107 then [CChar 8490] else []))
  else one (CChar c).
(** The operators behind an atom. *)
Definition p_post (e : regex) (s : str) : option (regex * str) :=
  if is_prefix (bs "?") s then Some (ROpt e, skipn 1 s)
  else if is_prefix (bs "*") s then match e with RClass c => Some (RStar c, skipn 1 s) | _ => None end
  else if is_prefix (bs "+") s then match e with RClass c => Some (RSeq e (RStar c), skipn 1 s) | _ => None end
  else Some (e, s).
(** Alternatives and sequences, with the flag [i], the number of the next group and the rest. *)
Fixpoint p_alt (fuel : nat) (ci : bool) (g : nat) (s : str) : option (regex * nat * str) :=
  match fuel with
  | 0 => None
  | S n =>
      match p_seq n ci g s with
      | Some (e, ci', g', r) =>
          if is_prefix (bs "|") r then
            match p_alt n ci' g' (skipn 1 r) with Some (e', g'', r') => Some (RAlt e e', g'', r') | None => None end
          else Some (e, g', r)
      | None => None
      end
  end
with p_seq (fuel : nat) (ci : bool) (g : nat) (s : str) : option (regex * bool * nat * str) :=
  match fuel with
  | 0 => None
  | S n =>
      let go e ci g r := match p_seq n ci g r with Some (e', ci', g', r') => Some (RSeq e e', ci', g', r') | None => None end in
      let post e g r := match p_post e r with Some (e', r') => go e' ci g r' | None => None end in
      let group (e : option (regex * nat * str)) (k : regex -> regex) :=
        match e with Some (e', g', r) => if is_prefix (bs ")") r then post (k e') g' (skipn 1 r) else None | None => None end in
      match s with
      | [] => Some (RNil, ci, g, s)
      | c :: r =>
          if is_prefix (bs "|") s || is_prefix (bs ")") s then Some (RNil, ci, g, s)
          else if is_prefix (bs "(?i)") s then p_seq n true g (skipn 4 s)
          else if is_prefix (bs "(?:") s then group (p_alt n ci g (skipn 3 s)) (fun e => e)
          else if is_prefix (bs "(") s then group (p_alt n ci (S g) r) (RGroup g)
          else if is_prefix (bs "[") s then
            if ci then None else match p_class r with Some (k, r') => post (RClass k) g r' | None => None end
          else if is_prefix (bs "^") s then go RBegin ci g r
          else if is_prefix (bs "$") s then go REnd ci g r
          else if is_prefix (bs "\b") s then go RBound ci g (skipn 2 s)
          else if is_prefix (bs ".") s then post (RClass (one CNoBreak)) g r
          else if is_prefix (bs "\") s then
            match p_escape r with
            | Some (CChar x, r') => post (RClass (literal ci x)) g r'
            | Some (i, r') => post (RClass (one i)) g r'
            | None => None
            end
          else if existsb (N.eqb c) (bs "*+?{}]") then None
          else post (RClass (literal ci c)) g r
      end
  end.
Definition p_regex (s : str) : option regex :=
  match p_alt (2 * length s + 2) false 1 s with
  | Some (e, _, []) => Some e
  | _ => None
  end.

(** ** Meaning *)
Section Meaning.
Variables (U : unicode) (digit : N -> bool).   (* [\d] beyond ASCII *)
Definition is_digit (c : N) : bool := if (c <? 128)%N then ascii_digit c else digit c.
Definition is_punct (c : N) : bool :=
  (((33 <=? c) && (c <=? 47)) || ((58 <=? c) && (c <=? 64)) || ((91 <=? c) && (c <=? 96)) || ((123 <=? c) && (c <=? 126)))%N.
Definition in_item (i : citem) (c : N) : bool :=
  match i with
  | CChar x => N.eqb c x
  | CRange a b => ((a <=? c) && (c <=? b))%N
  | CSpace => is_uspace c
  | CWord => is_word U c
  | CDigit => is_digit c
  | CPunct => is_punct c
  | CNoBreak => negb (N.eqb c 10)
  end.
Definition in_class (k : cclass) (c : N) : bool := xorb (c_neg k) (existsb (fun i => in_item i c) (c_items k)).

(** A place in the text: the characters before it, nearest first, and those behind it. *)
Definition place := (list N * list N)%type.
(** The groups that took part, latest first: number, start and end. *)
Definition groups := list (nat * (nat * nat)).
Definition word_at (l : list N) : bool := match l with c :: _ => is_word U c | [] => false end.
Fixpoint star (f : N -> bool) (b s : list N) : list place :=
  match s with
  | c :: s' => if f c then star f (c :: b) s' ++ [(b, s)] else [(b, s)]
  | [] => [(b, s)]
  end.
(** The places where a match from [z] may end, in the order a backtracking search tries them. *)
Fixpoint matches (r : regex) (z : place) (k : groups) : list (place * groups) :=
  match r with
  | RNil => [(z, k)]
  | RClass c => match snd z with x :: s => if in_class c x then [((x :: fst z, s), k)] else [] | [] => [] end
  | RStar c => map (fun y => (y, k)) (star (in_class c) (fst z) (snd z))
  | RSeq a b => flat_map (fun y => matches b (fst y) (snd y)) (matches a z k)
  | RAlt a b => matches a z k ++ matches b z k
  | ROpt a => matches a z k ++ [(z, k)]
  | RGroup n a => map (fun y => (fst y, (n, (length (fst z), length (fst (fst y)))) :: snd y)) (matches a z k)
  | RBegin => match fst z with [] => [(z, k)] | _ => [] end
  | REnd => match snd z with [] => [(z, k)] | _ => [] end
  | RBound => if xorb (word_at (fst z)) (word_at (snd z)) then [(z, k)] else []
  end.
(** The leftmost match at or behind [z]: where it begins, where it ends, its groups. *)
Fixpoint find_match (r : regex) (b s : list N) : option (place * place * groups) :=
  match matches r (b, s) [] with
  | (y, k) :: _ => Some ((b, s), y, k)
  | [] => match s with c :: s' => find_match r (c :: b) s' | [] => None end
  end.

(** The methods of the crate, for a pattern given as text. *)
Definition bytes_before (z : place) : nat := length (encode (rev (fst z))).
(** Regex::find *)
Definition rx_find (pattern : str) : matcher := fun s =>
  match p_regex pattern with
  | Some r => match find_match r [] (decode s) with Some (a, b, _) => Some (bytes_before a, bytes_before b) | None => None end
  | None => None
  end.
(** Regex::is_match *)
Definition rx_is_match (pattern s : str) : bool := match rx_find pattern s with Some _ => true | None => false end.
(** Regex::captures: the text of group [n] *)
Definition rx_group (pattern : str) (n : nat) (s : str) : option str :=
  match p_regex pattern with
  | Some r =>
      match find_match r [] (decode s) with
      | Some (_, _, k) => match find (fun e => Nat.eqb (fst e) n) k with
                          | Some (_, (a, b)) => Some (encode (firstn (b - a) (skipn a (decode s))))
                          | None => None
                          end
      | None => None
      end
  | None => None
  end.
(** Regex::replace *)
Definition rx_replace (pattern by_ s : str) : str :=
  match p_regex pattern with
  | Some r => match find_match r [] (decode s) with
              | Some (a, b, _) => encode (rev (fst a)) ++ by_ ++ encode (snd b)
              | None => s
              end
  | None => s
  end.
(** Regex::replace_all, for patterns that match no empty text *)
Fixpoint replace_all (fuel : nat) (r : regex) (by_ : str) (b s : list N) : option str :=
  match fuel with
  | 0 => None
  | S n =>
      match find_match r b s with
      | None => Some (encode s)
      | Some (x, y, _) =>
          if Nat.eqb (length (fst x)) (length (fst y)) then None
          else match replace_all n r by_ (fst y) (snd y) with
               | Some rest => Some (encode (firstn (length (fst x) - length b) s) ++ by_ ++ rest)
               | None => None
               end
      end
  end.
Definition rx_replace_all (pattern by_ s : str) : option str :=
  match p_regex pattern with
  | Some r => replace_all (S (length (decode s))) r by_ [] (decode s)
  | None => None
  end.
End Meaning.
