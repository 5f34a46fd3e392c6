(** * Base: byte strings, UTF-8, panics, slicing.

    Rust [&str] values are modelled as lists of bytes ([N]); offsets are byte
    offsets ([nat]), exactly as in the Rust code.  A Rust [&str] is always valid
    UTF-8; theorems that need this say so with the hypothesis [Utf8 t].
    Not modelled: the finite width of [usize]/[u32] (offsets are unbounded). *)

From Coq Require Export String Ascii.
From Coq Require Export List Arith NArith ZArith Bool Lia.
Export ListNotations.
Open Scope bool_scope.
Open Scope nat_scope.

Definition str := list N.

(** String literals: the bytes of a Coq literal (the source is UTF-8). *)
Fixpoint bs (s : string) : str :=
  match s with
  | EmptyString => []
  | String c r => N_of_ascii c :: bs r
  end.
Arguments bs _%string_scope.

(** ** Results: a Rust call either returns, panics, or (only in fuelled
    definitions, and proven unreachable) runs out of fuel. *)
Inductive panic_reason :=
| PSlice       (* string slice out of range or not on a char boundary *)
| PUnwrap      (* Option::unwrap on None *)
| PIndex       (* Vec index out of bounds *)
| PUnderflow   (* unsigned subtraction overflow (debug builds panic) *)
| PDivZero.    (* division by zero *)

Inductive res (A : Type) :=
| Ok (a : A)
| Panic (r : panic_reason)
| OutOfFuel.
Arguments Ok {A} a.
Arguments Panic {A} r.
Arguments OutOfFuel {A}.

Definition bind {A B} (x : res A) (f : A -> res B) : res B :=
  match x with
  | Ok a => f a
  | Panic r => Panic r
  | OutOfFuel => OutOfFuel
  end.
Notation "'do' x <- e ; f" := (bind e (fun x => f))
  (at level 200, x name, e at level 100, f at level 200, right associativity).
Notation "'do' ' p <- e ; f" := (bind e (fun x => match x with p => f end))
  (at level 200, p pattern, e at level 100, f at level 200, right associativity).

Definition unwrap {A} (o : option A) : res A :=
  match o with Some a => Ok a | None => Panic PUnwrap end.

(** [a - b] on unsigned integers. *)
Definition usub (a b : nat) : res nat :=
  if b <=? a then Ok (a - b) else Panic PUnderflow.

(** ** Byte string equality and search *)
Fixpoint beq (a b : str) : bool :=
  match a, b with
  | [], [] => true
  | x :: a', y :: b' => N.eqb x y && beq a' b'
  | _, _ => false
  end.

Fixpoint is_prefix (p s : str) : bool :=
  match p, s with
  | [], _ => true
  | _ :: _, [] => false
  | x :: p', y :: s' => N.eqb x y && is_prefix p' s'
  end.

(** Byte offset of the first occurrence of [p] in [s] (str::find). *)
Fixpoint find_str (p s : str) : option nat :=
  if is_prefix p s then Some 0
  else match s with
       | [] => None
       | _ :: s' => match find_str p s' with Some n => Some (S n) | None => None end
       end.

(** Byte offset of the first byte equal to [b]. *)
Fixpoint find_byte (b : N) (s : str) : option nat :=
  match s with
  | [] => None
  | x :: s' => if N.eqb x b then Some 0
               else match find_byte b s' with Some n => Some (S n) | None => None end
  end.

Definition contains_byte (b : N) (s : str) : bool := existsb (N.eqb b) s.

Definition opt_beq (a : option str) (b : str) : bool :=
  match a with Some s => beq s b | None => false end.

(** ** UTF-8 *)
Definition is_cont (b : N) : bool := ((128 <=? b) && (b <? 192))%N.

(** str::is_char_boundary. *)
Definition is_boundary (s : str) (i : nat) : bool :=
  (i =? 0) || (i =? length s) ||
  match nth_error s i with Some b => negb (is_cont b) | None => false end.

(** [&s[a..b]] *)
Definition slice (s : str) (a b : nat) : res str :=
  if (a <=? b) && (b <=? length s) && is_boundary s a && is_boundary s b
  then Ok (firstn (b - a) (skipn a s))
  else Panic PSlice.

(** [s.get(a..b)] *)
Definition str_get (s : str) (a b : nat) : option str :=
  if (a <=? b) && (b <=? length s) && is_boundary s a && is_boundary s b
  then Some (firstn (b - a) (skipn a s))
  else None.

(** The bytes between two offsets, without the Rust checks (specifications only). *)
Definition sub (s : str) (a b : nat) : str := firstn (b - a) (skipn a s).

(** Encoding of one Unicode scalar value. *)
Definition encode1 (c : N) : str :=
  (if c <? 128 then [c]
   else if c <? 2048 then [192 + c / 64; 128 + c mod 64]
   else if c <? 65536 then [224 + c / 4096; 128 + (c / 64) mod 64; 128 + c mod 64]
   else [240 + c / 262144; 128 + (c / 4096) mod 64; 128 + (c / 64) mod 64; 128 + c mod 64])%N.

Definition scalar (c : N) : bool :=
  ((c <? 55296) || ((57344 <=? c) && (c <? 1114112)))%N.

Definition encode (cs : list N) : str := flat_map encode1 cs.

Definition Utf8 (s : str) : Prop :=
  exists cs, forallb scalar cs = true /\ s = encode cs.

(** Code points from lead and continuation bytes. *)
Definition cp2 (a b : N) : N := ((a - 192) * 64 + (b - 128))%N.
Definition cp3 (a b c : N) : N := ((a - 224) * 4096 + (b - 128) * 64 + (c - 128))%N.
Definition cp4 (a b c d : N) : N :=
  ((a - 240) * 262144 + (b - 128) * 4096 + (c - 128) * 64 + (d - 128))%N.

(** First character of a string, with its width in bytes. *)
Definition decode1 (s : str) : option (N * nat) :=
  match s with
  | [] => None
  | b0 :: r0 =>
      if (b0 <? 128)%N then Some (b0, 1)
      else match r0 with
           | [] => None
           | b1 :: r1 =>
               if (b0 <? 224)%N then Some (cp2 b0 b1, 2)
               else match r1 with
                    | [] => None
                    | b2 :: r2 =>
                        if (b0 <? 240)%N then Some (cp3 b0 b1 b2, 3)
                        else match r2 with
                             | [] => None
                             | b3 :: _ => Some (cp4 b0 b1 b2 b3, 4)
                             end
                    end
           end
  end.

(** Byte length of the longest prefix all of whose characters satisfy [p]:
    what the regex [^C*] consumes for a character class [C]. *)
Fixpoint char_run (p : N -> bool) (s : str) : nat :=
  match s with
  | [] => 0
  | b0 :: r0 =>
      if (b0 <? 128)%N then if p b0 then S (char_run p r0) else 0
      else match r0 with
           | [] => 0
           | b1 :: r1 =>
               if (b0 <? 224)%N then if p (cp2 b0 b1) then 2 + char_run p r1 else 0
               else match r1 with
                    | [] => 0
                    | b2 :: r2 =>
                        if (b0 <? 240)%N then if p (cp3 b0 b1 b2) then 3 + char_run p r2 else 0
                        else match r2 with
                             | [] => 0
                             | b3 :: r3 =>
                                 if p (cp4 b0 b1 b2 b3) then 4 + char_run p r3 else 0
                             end
                    end
           end
  end.

(** All characters of a string (str::chars). *)
Fixpoint decode (s : str) : list N :=
  match s with
  | [] => []
  | b0 :: r0 =>
      if (b0 <? 128)%N then b0 :: decode r0
      else match r0 with
           | [] => []
           | b1 :: r1 =>
               if (b0 <? 224)%N then cp2 b0 b1 :: decode r1
               else match r1 with
                    | [] => []
                    | b2 :: r2 =>
                        if (b0 <? 240)%N then cp3 b0 b1 b2 :: decode r2
                        else match r2 with
                             | [] => []
                             | b3 :: r3 => cp4 b0 b1 b2 b3 :: decode r3
                             end
                    end
           end
  end.

(** ** Character classes *)
Definition ascii_upper_letter (c : N) : bool := ((65 <=? c) && (c <=? 90))%N.
Definition ascii_lower_letter (c : N) : bool := ((97 <=? c) && (c <=? 122))%N.
Definition ascii_alpha (c : N) : bool := ascii_upper_letter c || ascii_lower_letter c.
Definition ascii_digit (c : N) : bool := ((48 <=? c) && (c <=? 57))%N.
Definition ascii_alnum (c : N) : bool := ascii_alpha c || ascii_digit c.
Definition ascii_lower (c : N) : N := if ascii_upper_letter c then (c + 32)%N else c.
Definition ascii_upper (c : N) : N := if ascii_lower_letter c then (c - 32)%N else c.

(** Unicode White_Space: regex [\s] and [char::is_whitespace] (complete list). *)
Definition is_uspace (c : N) : bool :=
  (((9 <=? c) && (c <=? 13)) || (c =? 32) || (c =? 133) || (c =? 160) || (c =? 5760)
   || ((8192 <=? c) && (c <=? 8202)) || (c =? 8232) || (c =? 8233) || (c =? 8239)
   || (c =? 8287) || (c =? 12288))%N.

(** [char::is_control] / class [\x00-\x1F\x7F-\x9F]; here only the C1 block. *)
Definition is_c1 (c : N) : bool := ((128 <=? c) && (c <=? 159))%N.

(** The Unicode tables the code consults beyond ASCII are an oracle; its ASCII
    behaviour is built into [is_word] and [lower] below. *)
Record unicode := {
  uni_word : N -> bool;       (* regex [\w] on code points >= 128 *)
  uni_lower : str -> str      (* str::to_lowercase on strings with a non-ASCII character *)
}.

Definition is_word (U : unicode) (c : N) : bool :=
  if (c <? 128)%N then ascii_alnum c || (c =? 95)%N else uni_word U c.

Definition all_ascii (s : str) : bool := forallb (fun b => b <? 128)%N s.

Definition lower (U : unicode) (s : str) : str :=
  if all_ascii s then map ascii_lower s else uni_lower U s.

(** A concrete oracle for examples: a few Latin-1/Greek letters are word
    characters; lowercasing maps the Latin-1 capitals. *)
Definition demo_unicode : unicode := {|
  uni_word := fun c => ((192 <=? c) && (c <? 688) && negb (c =? 215) && negb (c =? 247))%N;
  uni_lower := fun s =>
    flat_map (fun c => encode1 (if ((192 <=? c) && (c <=? 222) && negb (c =? 215))%N
                                then (c + 32)%N else ascii_lower c)) (decode s)
|}.
