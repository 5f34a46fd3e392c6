(** * Stream: the operations of the [multi-line-stream] crate (1.1.1) used by the
    scanner.  The crate is a dependency whose source is not in /repo; its
    behaviour is modelled from its documented API (a port of vscode's
    MultiLineStream to byte offsets) and is part of the trusted base.
    Uses: /repo/src/parser/html_scanner.rs:41-441. *)
From Verif Require Import Base.

(** eos(): source.len() <= position. *)
Definition eos (t : str) (pos : nat) : bool := length t <=? pos.

(** peek_char(0) and peek_char(-1). *)
Definition peek (t : str) (pos : nat) : option N := nth_error t pos.
Definition peek_back (t : str) (pos : nat) : option N :=
  match pos with 0 => None | S p => nth_error t p end.
Definition peek_is (t : str) (pos : nat) (b : N) : bool :=
  match peek t pos with Some x => N.eqb x b | None => false end.

(** advance_if_char / advance_if_chars: the new position when advanced. *)
Definition adv_if_char (t : str) (pos : nat) (b : N) : option nat :=
  if peek_is t pos b then Some (pos + 1) else None.
Definition adv_if_chars (t : str) (pos : nat) (p : str) : option nat :=
  if is_prefix p (skipn pos t) then Some (pos + length p) else None.

(** advance_until_char: (found, new position); the end of the text if absent. *)
Definition adv_until_char (t : str) (pos : nat) (b : N) : bool * nat :=
  match find_byte b (skipn pos t) with
  | Some n => (true, pos + n)
  | None => (false, length t)
  end.

(** advance_until_chars: new position; the end of the text if absent. *)
Definition adv_until_chars (t : str) (pos : nat) (p : str) : nat :=
  match find_str p (skipn pos t) with
  | Some n => pos + n
  | None => length t
  end.

(** The bytes [skip_whitespace] skips: space, \t, \n, \x0C, \r. *)
Definition is_ws (b : N) : bool :=
  ((b =? 32) || (b =? 9) || (b =? 10) || (b =? 12) || (b =? 13))%N.

Fixpoint ws_len (s : str) : nat :=
  match s with
  | [] => 0
  | b :: r => if is_ws b then S (ws_len r) else 0
  end.

(** skip_whitespace: [Some newpos] when at least one byte was skipped. *)
Definition skip_ws (t : str) (pos : nat) : option nat :=
  match ws_len (skipn pos t) with
  | 0 => None
  | n => Some (pos + n)
  end.

(** Regular expressions are modelled by matchers: [(start, end)] of the leftmost
    match relative to the haystack. *)
Definition matcher := str -> option (nat * nat).

(** advance_if_regexp: slices [&source[pos..]] (a panic when [pos] is not a char
    boundary); on a match sets the position to the end of the match.  Returns the
    offsets of the match in the text. *)
Definition adv_if_regexp (m : matcher) (t : str) (pos : nat)
  : res (option (nat * nat)) :=
  do rest <- slice t pos (length t);
  Ok (match m rest with
      | Some (s, e) => Some (pos + s, pos + e)
      | None => None
      end).

(** advance_until_regexp: position of the start of the match, else the end. *)
Definition adv_until_regexp (m : matcher) (t : str) (pos : nat) : res nat :=
  do rest <- slice t pos (length t);
  Ok (match m rest with
      | Some (s, _) => pos + s
      | None => length t
      end).
