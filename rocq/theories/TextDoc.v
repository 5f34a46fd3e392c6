(** * TextDoc: positions, the interface of lsp_textdocument::FullTextDocument.

    The crate lsp-textdocument is not in /repo.  The services only call
    [position_at], [offset_at] and [get_content(None)]; they are modelled by a
    record whose two conversion functions are arbitrary but meet the contract
    [textdoc_ok]; every service theorem quantifies over all such documents.
    [utf16_doc] is a concrete instance (LSP positions: line, UTF-16 column). *)
From Verif Require Import Base.

(** lsp_types::Position. *)
Record position := mkPos { line : nat; character : nat }.
Definition pos_lt (a b : position) : Prop :=
  line a < line b \/ (line a = line b /\ character a < character b).
Definition pos_le (a b : position) : Prop := a = b \/ pos_lt a b.
Definition pos_ltb (a b : position) : bool :=
  (line a <? line b) || ((line a =? line b) && (character a <? character b)).
(** lsp_types::Range. *)
Record range := mkRange { r_start : position; r_end : position }.

Record textdoc := mkDoc {
  d_text : str;
  position_at : nat -> position;   (* defined for character boundaries; arbitrary elsewhere *)
  offset_at : position -> nat
}.
Definition range_at (d : textdoc) (a b : nat) : range := mkRange (position_at d a) (position_at d b).

(** The contract. Off boundaries, and for positions that denote no place of the
    text, nothing is assumed except that [offset_at] stays on a boundary. *)
Record textdoc_ok (d : textdoc) : Prop := {
  do_utf8 : Utf8 (d_text d);
  do_offset : forall p, offset_at d p <= length (d_text d) /\ is_boundary (d_text d) (offset_at d p) = true;
  do_inv : forall o, o <= length (d_text d) -> is_boundary (d_text d) o = true ->
             offset_at d (position_at d o) = o;
  do_mono : forall o o', o < o' -> o' <= length (d_text d) ->
             is_boundary (d_text d) o = true -> is_boundary (d_text d) o' = true ->
             pos_lt (position_at d o) (position_at d o');
  do_clamp : forall o, length (d_text d) <= o -> position_at d o = position_at d (length (d_text d))
}.

(** ** The concrete instance *)
(** char::len_utf16 *)
Definition utf16_width (c : N) : nat := if (c <? 65536)%N then 1 else 2.
(** Line ends: LF, CR LF, CR. [rest] is what follows the character. *)
Definition ends_line (c : N) (rest : list N) : bool :=
  (N.eqb c 10 || (N.eqb c 13 && match rest with x :: _ => negb (N.eqb x 10) | [] => true end))%N.
(** Advance over one character. *)
Definition next_pos (p : position) (c : N) (rest : list N) : position :=
  if ends_line c rest then mkPos (S (line p)) 0
  else mkPos (line p) (character p + utf16_width c).
(** Position of the byte offset [o] counted from position [p]. *)
Fixpoint pos_walk (cs : list N) (o : nat) (p : position) : position :=
  match cs with
  | [] => p
  | c :: r => if o <? length (encode1 c) then p
              else pos_walk r (o - length (encode1 c)) (next_pos p c r)
  end.
(** Offset of the first character at or after position [q]. *)
Fixpoint off_walk (cs : list N) (q p : position) (acc : nat) : nat :=
  match cs with
  | [] => acc
  | c :: r => if pos_ltb p q then off_walk r q (next_pos p c r) (acc + length (encode1 c)) else acc
  end.
Definition utf16_doc (t : str) : textdoc :=
  mkDoc t (fun o => pos_walk (decode t) o (mkPos 0 0)) (fun q => off_walk (decode t) q (mkPos 0 0) 0).
