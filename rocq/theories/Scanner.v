(** * Scanner: /repo/src/parser/html_scanner.rs *)
From Verif Require Import Base Stream.

(** html_scanner.rs:485-509 *)
Inductive token_type :=
| StartCommentTag | Comment | EndCommentTag | StartTagOpen | StartTagClose
| StartTagSelfClose | StartTag | EndTagOpen | EndTagClose | EndTag
| DelimiterAssign | AttributeName | AttributeValue | StartDoctypeTag | Doctype
| EndDoctypeTag | Content | Whitespace | Unknown | Script | Styles | EOS.

Definition token_eq_dec (a b : token_type) : {a = b} + {a <> b}.
Proof. decide equality. Defined.
Definition token_eqb (a b : token_type) : bool :=
  if token_eq_dec a b then true else false.

(** html_scanner.rs:511-524 *)
Inductive sstate :=
| WithinContent | AfterOpeningStartTag | AfterOpeningEndTag | WithinDoctype
| WithinTag | WithinEndTag | WithinComment | WithinScriptContent
| WithinStyleContent | AfterAttributeName | BeforeAttributeValue.

Definition sstate_eq_dec (a b : sstate) : {a = b} + {a <> b}.
Proof. decide equality. Defined.

(** Error messages attached to tokens (the string literals of
    html_scanner.rs:175,184,206,209,226,235,292,299). *)
Inductive token_error :=
| ErrNameMustFollow | ErrEndTagNameExpected | ErrClosingBracketMissing
| ErrClosingBracketExpected | ErrStartTagNameExpected | ErrUnexpectedChar.

(** Mutable fields of [Scanner] (html_scanner.rs:18-31).  The immutable fields
    (source, emit_pseudo_close_tags, case_sensitive) are parameters below. *)
Record scanner := mkScanner {
  st : sstate;               (* state *)
  tok : token_type;          (* token_type *)
  tok_off : nat;             (* token_offset *)
  tok_err : option token_error;
  pos : nat;                 (* stream position *)
  has_space : bool;          (* has_space_after_tag *)
  last_tag : option str;
  last_attr : option str;    (* last_attribute_name *)
  last_type : option str     (* last_type_value *)
}.

(** Scanner::new, html_scanner.rs:34-57 *)
Definition scanner_new (initial_offset : nat) (initial_state : sstate) : scanner :=
  mkScanner initial_state Unknown 0 None initial_offset false None None None.

(** ** Regular expressions, html_scanner.rs:7-15 *)

(** [^!(?i)doctype]: no non-ASCII character folds to a letter of "doctype". *)
Definition m_doctype : matcher := fun s =>
  match s with
  | b :: r => if (N.eqb b 33 && beq (map ascii_lower (firstn 7 r)) (bs "doctype"))%bool
              then Some (0, 8) else None
  | [] => None
  end.

(** class of REG_NON_SPECIAL_START: anything but [\s], double quote, quote,
    backquote, [= < >] *)
Definition val_char (c : N) : bool :=
  negb (is_uspace c || (c =? 34) || (c =? 39) || (c =? 96) || (c =? 61)
        || (c =? 60) || (c =? 62))%N.
Definition m_value : matcher := fun s =>
  match char_run val_char s with 0 => None | n => Some (0, n) end.

(** classes of REG_ELEMENT_NAME: [[_:\w]] and [[_:\w\-.\d]] ([\d] is within [\w]) *)
Definition name_start_char (U : unicode) (c : N) : bool :=
  ((c =? 95) || (c =? 58))%N || is_word U c.
Definition name_char (U : unicode) (c : N) : bool :=
  name_start_char U c || ((c =? 45) || (c =? 46))%N.
Definition m_element_name (U : unicode) : matcher := fun s =>
  match decode1 s with
  | Some (c, w) => if name_start_char U c
                   then Some (0, w + char_run (name_char U) (skipn w s)) else None
  | None => None
  end.

(** class of REG_NON_ELEMENT_NAME: anything but [\s], double quote, quote,
    [> < / =], \x00-\x0F, \x7F, \x80-\x9F *)
Definition attr_char (c : N) : bool :=
  negb (is_uspace c || (c =? 34) || (c =? 39) || (c =? 62) || (c =? 60) || (c =? 47)
        || (c =? 61) || (c <=? 15) || (c =? 127) || is_c1 c)%N.
Definition m_attr_name : matcher := fun s =>
  match char_run attr_char s with 0 => None | n => Some (0, n) end.

(** Leftmost match of an expression whose match length at a position is [at_]. *)
Fixpoint search (at_ : str -> option nat) (s : str) : option (nat * nat) :=
  match at_ s with
  | Some n => Some (0, n)
  | None => match s with
            | [] => None
            | _ :: r => match search at_ r with
                        | Some (a, b) => Some (S a, S b)
                        | None => None
                        end
            end
  end.

(** REG_SCRIPT_COMMENT: [<!--|-->|<\/?script\s*\/?>?] *)
Definition script_tail (r : str) : nat :=
  let n := char_run is_uspace r in
  let k := if is_prefix [47%N] (skipn n r) then 1 else 0 in
  let j := if is_prefix [62%N] (skipn (n + k) r) then 1 else 0 in
  n + k + j.
Definition script_at (s : str) : option nat :=
  if is_prefix (bs "<!--") s then Some 4
  else if is_prefix (bs "-->") s then Some 3
  else if is_prefix (bs "</script") s then Some (8 + script_tail (skipn 8 s))
  else if is_prefix (bs "<script") s then Some (7 + script_tail (skipn 7 s))
  else None.
Definition m_script : matcher := search script_at.

(** REG_STYLE: [<\/style] *)
Definition m_style : matcher := fun s =>
  match find_str (bs "</style") s with Some n => Some (n, n + 7) | None => None end.

(** Characters used in the code. *)
Definition LT : N := 60.  Definition GT : N := 62.  Definition SLASH : N := 47.
Definition EQ : N := 61.  Definition BANG : N := 33.
Definition SQUOTE : N := 39.  Definition DQUOTE : N := 34.

(** MultiLineStream::go_back and usize subtraction are total here because the
    code only goes back over what it just matched. *)
Section Scan.
Variable U : unicode.
Variable t : str.        (* stream.source *)
Variable emit : bool.    (* emit_pseudo_close_tags *)
Variable cs : bool.      (* case_sensitive *)

(** finish_token (html_scanner.rs:444-454) together with the new position and
    state; the other fields are kept. *)
Definition finish (sc : scanner) (off : nat) (tk : token_type) (err : option token_error)
           (p : nat) (s : sstate) : scanner :=
  mkScanner s tk off err p (has_space sc) (last_tag sc) (last_attr sc) (last_type sc).

Definition set_space (b : bool) (sc : scanner) : scanner :=
  mkScanner (st sc) (tok sc) (tok_off sc) (tok_err sc) (pos sc) b
            (last_tag sc) (last_attr sc) (last_type sc).
Definition set_last_tag (v : option str) (sc : scanner) : scanner :=
  mkScanner (st sc) (tok sc) (tok_off sc) (tok_err sc) (pos sc) (has_space sc)
            v (last_attr sc) (last_type sc).
Definition set_last_attr (v : option str) (sc : scanner) : scanner :=
  mkScanner (st sc) (tok sc) (tok_off sc) (tok_err sc) (pos sc) (has_space sc)
            (last_tag sc) v (last_type sc).
Definition set_last_type (v : option str) (sc : scanner) : scanner :=
  mkScanner (st sc) (tok sc) (tok_off sc) (tok_err sc) (pos sc) (has_space sc)
            (last_tag sc) (last_attr sc) v.

(** The name a regexp matched, lowercased unless case sensitive, with the new
    position: next_element_name (456-468) and next_attribute_name (470-482). *)
Definition name_of (m : matcher) (p : nat) : res (option (str * nat)) :=
  do r <- adv_if_regexp m t p;
  Ok (match r with
      | Some (s, e) => Some (if cs then sub t s e else lower U (sub t s e), e)
      | None => None
      end).
Definition next_element_name (p : nat) := name_of (m_element_name U) p.
Definition next_attribute_name (p : nat) := name_of m_attr_name p.

(** Every state begins with the end-of-stream check of internal_scan (111-114). *)
Definition eos_or (sc : scanner) (k : nat -> res scanner) : res scanner :=
  let off := pos sc in
  if eos t off then Ok (finish sc off EOS None off (st sc)) else k off.

(** WithinComment, 118-126 *)
Definition scan_comment (sc : scanner) : res scanner :=
  eos_or sc (fun off =>
    match adv_if_chars t off (bs "-->") with
    | Some p => Ok (finish sc off EndCommentTag None p WithinContent)
    | None => Ok (finish sc off Comment None (adv_until_chars t off (bs "-->")) (st sc))
    end).

(** WithinDoctype, 128-135 *)
Definition scan_doctype (sc : scanner) : res scanner :=
  eos_or sc (fun off =>
    match adv_if_char t off GT with
    | Some p => Ok (finish sc off EndDoctypeTag None p WithinContent)
    | None => Ok (finish sc off Doctype None (snd (adv_until_char t off GT)) (st sc))
    end).

(** WithinContent, 137-162 *)
Definition scan_content (sc : scanner) : res scanner :=
  eos_or sc (fun off =>
    match adv_if_char t off LT with
    | Some p =>
        let rest :=
          match adv_if_char t p SLASH with
          | Some q => Ok (finish sc off EndTagOpen None q AfterOpeningEndTag)
          | None => Ok (finish sc off StartTagOpen None p AfterOpeningStartTag)
          end in
        if negb (eos t p) && peek_is t p BANG then
          match adv_if_chars t p (bs "!--") with
          | Some q => Ok (finish sc off StartCommentTag None q WithinComment)
          | None =>
              do r <- adv_if_regexp m_doctype t p;
              match r with
              | Some (_, q) => Ok (finish sc off StartDoctypeTag None q WithinDoctype)
              | None => rest
              end
          end
        else rest
    | None => Ok (finish sc off Content None (snd (adv_until_char t off LT)) (st sc))
    end).

(** WithinEndTag, 190-210 and the common exit 439-441 *)
Definition scan_within_end_tag (sc : scanner) : res scanner :=
  eos_or sc (fun off =>
    match skip_ws t off with
    | Some p => Ok (finish sc off Whitespace None p (st sc))
    | None =>
        match adv_if_char t off GT with
        | Some p => Ok (finish sc off EndTagClose None p WithinContent)
        | None =>
            if emit && peek_is t off LT
            then Ok (finish sc off EndTagClose (Some ErrClosingBracketMissing) off WithinContent)
            else Ok (finish sc off Unknown (Some ErrClosingBracketExpected) (off + 1) WithinContent)
        end
    end).

(** WithinTag, 241-301 *)
Definition scan_within_tag_rest (sc : scanner) (off : nat) : res scanner :=
  match adv_if_chars t off (bs "/>") with
  | Some p => Ok (finish sc off StartTagSelfClose None p WithinContent)
  | None =>
      match adv_if_char t off GT with
      | Some p =>
          let s :=
            if opt_beq (last_tag sc) (bs "script") then
              match last_type sc with
              | Some _ => WithinContent
              | None => WithinScriptContent
              end
            else if opt_beq (last_tag sc) (bs "style") then WithinStyleContent
            else WithinContent in
          Ok (finish sc off StartTagClose None p s)
      | None =>
          if emit && peek_is t off LT
          then Ok (finish sc off StartTagClose (Some ErrClosingBracketMissing) off WithinContent)
          else Ok (finish sc off Unknown (Some ErrUnexpectedChar) (off + 1) (st sc))
      end
  end.
Definition scan_within_tag (sc : scanner) : res scanner :=
  eos_or sc (fun off =>
    match skip_ws t off with
    | Some p => Ok (finish (set_space true sc) off Whitespace None p (st sc))
    | None =>
        if has_space sc then
          do r <- next_attribute_name off;
          match r with
          | Some (name, p) =>
              Ok (finish (set_space false (set_last_attr (Some name) sc))
                         off AttributeName None p AfterAttributeName)
          | None =>
              let sc := set_last_attr None sc in
              let sc := if peek_is t off EQ then set_space false sc else sc in
              scan_within_tag_rest sc off
          end
        else scan_within_tag_rest sc off
    end).

Definition set_st (s : sstate) (sc : scanner) : scanner :=
  mkScanner s (tok sc) (tok_off sc) (tok_err sc) (pos sc) (has_space sc)
            (last_tag sc) (last_attr sc) (last_type sc).

(** AfterOpeningEndTag, 164-188 *)
Definition scan_after_opening_end_tag (sc : scanner) : res scanner :=
  eos_or sc (fun off =>
    do r <- next_element_name off;
    match r with
    | Some (_, p) => Ok (finish sc off EndTag None p WithinEndTag)
    | None =>
        match skip_ws t off with
        | Some p => Ok (finish sc off Whitespace (Some ErrNameMustFollow) p (st sc))
        | None =>
            let p := snd (adv_until_char t off GT) in
            if off <? p
            then Ok (finish sc off Unknown (Some ErrEndTagNameExpected) p WithinEndTag)
            else scan_within_end_tag (set_st WithinEndTag sc)
        end
    end).

(** AfterOpeningStartTag, 212-239 *)
Definition scan_after_opening_start_tag (sc : scanner) : res scanner :=
  eos_or sc (fun off =>
    do r <- next_element_name off;
    let sc := set_last_attr None (set_last_type None (set_last_tag (option_map fst r) sc)) in
    match r with
    | Some (_, p) => Ok (finish (set_space false sc) off StartTag None p WithinTag)
    | None =>
        match skip_ws t off with
        | Some p => Ok (finish sc off Whitespace (Some ErrNameMustFollow) p (st sc))
        | None =>
            let p := snd (adv_until_char t off GT) in
            if off <? p
            then Ok (finish sc off Unknown (Some ErrStartTagNameExpected) p WithinTag)
            else scan_within_tag (set_st WithinTag sc)
        end
    end).

(** AfterAttributeName, 303-315 *)
Definition scan_after_attribute_name (sc : scanner) : res scanner :=
  eos_or sc (fun off =>
    match skip_ws t off with
    | Some p => Ok (finish (set_space true sc) off Whitespace None p (st sc))
    | None =>
        match adv_if_char t off EQ with
        | Some p => Ok (finish sc off DelimiterAssign None p BeforeAttributeValue)
        | None => scan_within_tag (set_st WithinTag sc)
        end
    end).

Definition set_pos (p : nat) (sc : scanner) : scanner :=
  mkScanner (st sc) (tok sc) (tok_off sc) (tok_err sc) p (has_space sc)
            (last_tag sc) (last_attr sc) (last_type sc).

Definition nonempty (s : str) : option str :=
  match s with [] => None | _ => Some s end.

(** BeforeAttributeValue after the unquoted attempt failed, 359-389: [off] is the
    token's offset, [p0] the current position. *)
Definition scan_quoted (sc : scanner) (off p0 : nat) : res scanner :=
  let fallback := scan_within_tag (set_space false (set_pos p0 (set_st WithinTag sc))) in
  match peek t p0 with
  | Some ch =>
      if N.eqb ch SQUOTE || N.eqb ch DQUOTE then
        let '(found, q) := adv_until_char t (p0 + 1) ch in
        let p := if found then q + 1 else q in
        do sc' <-
          (if opt_beq (last_attr sc) (bs "type") then
             do s <- (if p - 1 <? off + 1
                      then slice t (p - 1) (off + 1)
                      else slice t (off + 1) (p - 1));
             Ok (set_last_type (nonempty s) sc)
           else Ok sc);
        Ok (finish (set_space false sc') off AttributeValue None p WithinTag)
      else fallback
  | None => fallback
  end.

(** BeforeAttributeValue, 317-390.  [cur_char]/[prev_char] are read before the
    regexp runs, as in the code (323-325), so [go_back] holds only when the
    current character is '>', which the regexp never matches: is_go_back is dead
    code, kept here for fidelity. *)
Definition scan_before_attribute_value (sc : scanner) : res scanner :=
  eos_or sc (fun off =>
    match skip_ws t off with
    | Some p => Ok (finish (set_space true sc) off Whitespace None p WithinTag)
    | None =>
        let cur_char := peek t off in
        let prev_char := peek_back t off in
        do r <- adv_if_regexp m_value t off;
        match r with
        | Some (s, e) =>
            let is_go_back :=
              match cur_char, prev_char with
              | Some c, Some d => N.eqb c GT && N.eqb d SLASH
              | _, _ => false
              end in
            (* attribute_value after the truncation of line 331, by its length *)
            let len := if is_go_back then (e - s) - 1 else e - s in
            let p := match adv_if_char t e SQUOTE with
                     | Some p => Some p
                     | None => adv_if_char t e DQUOTE
                     end in
            do v <- match p with
                    | Some p => slice t (p - len - 1) p
                    | None => Ok (sub t s (s + len))
                    end;
            let p := match p with Some p => p | None => e end in
            let sc := if opt_beq (last_attr sc) (bs "type")
                      then set_last_type (nonempty v) sc else sc in
            let p := if is_go_back then p - 1 else p in
            if 0 <? length v
            then Ok (finish (set_space false sc) off AttributeValue None p WithinTag)
            else scan_quoted sc off p
        | None => scan_quoted sc off off
        end
    end).

(** WithinScriptContent, 392-427.  [ss] is script_state. Fuel: the number of
    regexp matches; [length t] suffices because every match is non-empty
    (proved). *)
Fixpoint script_loop (fuel : nat) (ss : nat) (p : nat) : res (bool * nat) :=
  (* (true, p): finished with a Script token at the end; (false, p): left the loop *)
  if eos t p then Ok (false, p)
  else match fuel with
  | 0 => OutOfFuel
  | S fuel' =>
      do r <- adv_if_regexp m_script t p;
      match r with
      | None => Ok (true, length t)
      | Some (s, e) =>
          let m := sub t s e in
          if beq m (bs "<!--") then script_loop fuel' (if ss =? 1 then 2 else ss) e
          else if beq m (bs "-->") then script_loop fuel' 1 e
          else
            do c <- slice m 1 2;
            if negb (beq c [SLASH]) then script_loop fuel' (if ss =? 2 then 3 else ss) e
            else if ss =? 3 then script_loop fuel' 2 e
            else Ok (false, e - length m)
      end
  end.
Definition scan_script (sc : scanner) : res scanner :=
  eos_or sc (fun off =>
    do ' (fin, p) <- script_loop (length t) 1 off;
    if (fin : bool) then Ok (finish sc off Script None p (st sc))
    else if off <? p then Ok (finish sc off Script None p WithinContent)
    else scan_content (set_st WithinContent sc)).

(** WithinStyleContent, 429-436 *)
Definition scan_style (sc : scanner) : res scanner :=
  eos_or sc (fun off =>
    do p <- adv_until_regexp m_style t off;
    if off <? p then Ok (finish sc off Styles None p WithinContent)
    else scan_content (set_st WithinContent sc)).

(** internal_scan, 110-442 *)
Definition internal_scan (sc : scanner) : res scanner :=
  match st sc with
  | WithinComment => scan_comment sc
  | WithinDoctype => scan_doctype sc
  | WithinContent => scan_content sc
  | AfterOpeningEndTag => scan_after_opening_end_tag sc
  | WithinEndTag => scan_within_end_tag sc
  | AfterOpeningStartTag => scan_after_opening_start_tag sc
  | WithinTag => scan_within_tag sc
  | AfterAttributeName => scan_after_attribute_name sc
  | BeforeAttributeValue => scan_before_attribute_value sc
  | WithinScriptContent => scan_script sc
  | WithinStyleContent => scan_style sc
  end.

(** scan, 59-76 *)
Definition scan (sc : scanner) : res scanner :=
  let off := pos sc in
  do sc' <- internal_scan sc;
  if negb (token_eqb (tok sc') EOS) && (off =? pos sc')
     && negb (emit && (token_eqb (tok sc') StartTagClose || token_eqb (tok sc') EndTagClose))
  then Ok (finish sc' off Unknown None (pos sc' + 1) (st sc'))
  else Ok sc'.

(** get_token_text, 94-96 *)
Definition token_text (sc : scanner) : res str := slice t (tok_off sc) (pos sc).

(** A token as observed through the public accessors, 78-104. *)
Record token := mkToken {
  tk_type : token_type; tk_off : nat; tk_end : nat;
  tk_err : option token_error; tk_state : sstate
}.
Definition token_of (sc : scanner) : token :=
  mkToken (tok sc) (tok_off sc) (pos sc) (tok_err sc) (st sc).

(** The loop every client runs: [while scan() != EOS { ... }]. Returns the tokens
    before EOS and the scanner that returned EOS. *)
Fixpoint tokens (fuel : nat) (sc : scanner) : res (list token * scanner) :=
  match fuel with
  | 0 => OutOfFuel
  | S fuel' =>
      do sc' <- scan sc;
      if token_eqb (tok sc') EOS then Ok ([], sc')
      else do ' (l, f) <- tokens fuel' sc'; Ok (token_of sc' :: l, f)
  end.

(** Fuel enough for a scan starting anywhere (proved). *)
Definition scan_fuel : nat := 2 * length t + 2.
Definition scan_all (sc : scanner) : res (list token * scanner) := tokens scan_fuel sc.
End Scan.
