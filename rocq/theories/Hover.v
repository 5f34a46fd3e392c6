(** * Hover: /repo/src/services/html_hover.rs, utils/markdown.rs, utils/strings.rs *)
From Verif Require Import Base Stream Scanner Tree TextDoc SelectionRange DataManager Entities.

(** ** lsp_types *)
Inductive marked := MString (s : str) | MLanguage (lang s : str).
Inductive hover_contents := HScalar (m : marked) | HArray (l : list marked) | HMarkup (m : markup).
Record hover := mkHover { h_contents : hover_contents; h_range : option range }.
(** The client capabilities, as far as they are about formats. [cap_completion] is
    the path read by utils/markdown.rs:5-21: text_document, completion,
    completion_item and documentation_format, each optional. [cap_hover],
    text_document.hover.content_format, is never read. *)
Record capabilities := mkCaps {
  cap_completion : option (option (option (option (list markup_kind))));
  cap_hover : option (list markup_kind)
}.
Definition is_markdown (k : markup_kind) : bool := match k with Markdown => true | PlainText => false end.
(** does_support_markdown, utils/markdown.rs:5-21 *)
Definition does_support_markdown (client : option capabilities) : bool :=
  match client with
  | None => true
  | Some c =>
      match cap_completion c with
      | Some (Some (Some (Some l))) => existsb is_markdown l
      | _ => false
      end
  end.

(** is_letter_or_digit, utils/strings.rs:2-7: [text.get(index..index + 1)] is one
    byte and so an ASCII character, or nothing. *)
Definition alnum_at (t : str) (i : nat) : bool :=
  match nth_error t i with Some b => ascii_alnum b | None => false end.
(** The loop going left from [o], 407-410 and 452-454 *)
Fixpoint alnum_left (t : str) (o : nat) : nat :=
  match o with 0 => 0 | S k => if alnum_at t k then alnum_left t k else o end.
(** The length of the run to the right, 415-418 and 460-463 *)
Fixpoint alnum_run (s : str) : nat :=
  match s with b :: r => if ascii_alnum b then S (alnum_run r) else 0 | [] => 0 end.

(** [format!("{:02X}", n)] *)
Definition hex_digit (n : N) : N := if (n <? 10)%N then (48 + n)%N else (55 + n)%N.
Fixpoint hex_digits (fuel : nat) (n : N) (acc : str) : str :=
  match fuel with
  | 0 => acc
  | S f => let acc' := hex_digit (n mod 16) :: acc in
           if (n <? 16)%N then acc' else hex_digits f (n / 16) acc'
  end.
Definition hex (n : N) : str :=
  let s := hex_digits 8 n [] in
  match s with [_] => 48%N :: s | _ => s end.

(** trim_quotes, 496-511. [s.get(0..1)] equals a quote iff the first byte is one. *)
Definition is_quote_byte (b : N) : bool := (N.eqb b 39 || N.eqb b 34).
Definition trim_quotes (s : str) : str :=
  match s with
  | [] => []
  | [b] => if is_quote_byte b then [] else s
  | b :: r =>
      let s1 := if is_quote_byte b then r else s in
      match rev s1 with
      | e :: m => if is_quote_byte e then rev m else s1
      | [] => s1
      end
  end.

(** IHoverParticipant, participant.rs:11-17: what it answers; the document, the tree
    and the position are those of the request. *)
Record hover_participant := mkHP {
  hp_value : str -> str -> str -> range -> option hover;   (* tag, attribute, value, range *)
  hp_content : option hover
}.
(** HoverSettings, 552-555 *)
Record hover_settings := mkHS { hs_doc : bool; hs_refs : bool }.

Section Hover.
Variables (U : unicode) (d : textdoc) (cs : bool).
(** self: supports_markdown, hover_participants *)
Variables (md : bool) (parts : list hover_participant).
(** The providers of the data manager and the language of the document; those used
    are the applicable ones, 72-77. *)
Variables (providers : list provider) (lang : str).
Let ps : list provider := filter (fun p => pv_applicable p lang) providers.
(** html_entities::ENTITIES *)
Variable ents : list (str * list N).
Variable opts : hover_settings.
Let t := d_text d.

(** convert_contents, 513-538 *)
Definition plain_marked (m : marked) : marked := match m with MString s => MString s | MLanguage _ s => MString s end.
Definition convert_contents (c : hover_contents) : hover_contents :=
  if md then c
  else match c with
       | HArray l => HArray (map plain_marked l)
       | HMarkup m => HMarkup (mkMarkup PlainText (mk_value m))
       | HScalar m => HScalar (plain_marked m)
       end.
Definition doc_of (desc : option description) (refs : option (list reference)) : option markup :=
  generate_documentation desc refs (hs_doc opts) (hs_refs opts) md.

(** get_tag_hover, 175-222: in one provider the last tag with the name counts. *)
Definition same_tag (x y : str) : bool := if cs then beq x y else beq (lower U x) (lower U y).
Fixpoint first_some {A B} (f : A -> option B) (l : list A) : option B :=
  match l with [] => None | a :: r => match f a with Some b => Some b | None => first_some f r end end.
Definition tag_hover_of (r : range) (td : tag_data) : hover :=
  mkHover (convert_contents (HMarkup
    match doc_of (t_desc td) (t_refs td) with
    | Some m => m
    | None => mkMarkup (if md then Markdown else PlainText) []
    end)) (Some r).
Definition get_tag_hover (cur : str) (r : range) : option hover :=
  first_some (fun p => fold_left (fun h td => if same_tag (t_name td) cur then Some (tag_hover_of r td) else h)
                                 (pv_tags p) None) ps.

(** get_attr_hover, 224-270 *)
Definition is_some {A} (o : option A) : bool := match o with Some _ => true | None => false end.
Definition content_hover (r : range) (m : option markup) : option hover :=
  match m with Some m => Some (mkHover (convert_contents (HMarkup m)) (Some r)) | None => None end.
Definition get_attr_hover (tag cur : str) (r : range) : option hover :=
  first_some (fun p => fold_left (fun h a =>
      if beq cur (a_name a) && is_some (a_desc a)
      then content_hover r (doc_of (a_desc a) (a_refs a)) else h) (pv_attributes p tag) None) ps.

(** get_attr_value_hover, 272-320 *)
Definition get_attr_value_hover (tag attr v : str) (r : range) : option hover :=
  match first_some (fun q => hp_value q tag attr v r) parts with
  | Some h => Some h
  | None =>
      first_some (fun p => first_some (fun x =>
          if beq v (v_name x) && is_some (v_desc x)
          then content_hover r (doc_of (v_desc x) (v_refs x)) else None) (pv_values p tag attr)) ps
  end.

(** The loop of get_tag_name_range, 383-389, and its result: type, offset and end of
    the last token scanned. *)
Fixpoint hover_scan (fuel : nat) (ty : token_type) (o : nat) (sc : scanner) : res scanner :=
  match fuel with
  | 0 => OutOfFuel
  | S fuel' =>
      do sc' <- scan U t false cs sc;
      if negb (token_eqb (tok sc') EOS) &&
         ((pos sc' <? o) || ((pos sc' =? o) && negb (token_eqb (tok sc') ty)))
      then hover_scan fuel' ty o sc'
      else Ok sc'
  end.
(** get_tag_name_range, 370-399 *)
Definition hover_token_range (ty : token_type) (start o : nat) : res (option range) :=
  do sc <- hover_scan (scan_fuel t) ty o (scanner_new start WithinContent);
  Ok (if token_eqb (tok sc) ty && (o <=? pos sc) then Some (range_at d (tok_off sc) (pos sc)) else None).

(** get_entity_range, 401-446 *)
Definition get_entity_range (p : position) (o : nat) : res (option range) :=
  let k := alnum_left t o in
  do c0 <- usub (character p) (o - k);
  let len := alnum_run (skipn k t) in
  let c1 := c0 + len in
  Ok (match k with
      | 0 => None
      | S k' =>
          match nth_error t k' with
          | Some b =>
              if (b =? 38)%N then
                let c1' := match nth_error t (k + len) with
                           | Some e => if (e =? 59)%N then c1 + 1 else c1
                           | None => c1
                           end in
                Some (mkRange (mkPos (line p) c0) (mkPos (line p) c1'))
              else None
          | None => None
          end
      end).
(** filter_entity, 448-468. If the run reaches the start of the text, [k] is -1 and
    [k as usize + 1] overflows. *)
Definition filter_entity (o : nat) : res str :=
  let k := alnum_left t o in
  match k with
  | 0 => Panic PUnderflow
  | _ => Ok (bs "&" ++ firstn (alnum_run (skipn k t)) (skipn k t) ++ bs ";")
  end.
(** get_entity_hover, 322-368: the keys of the table are distinct, so at most one
    entry matches, whatever the order of the HashMap. *)
Definition entity_text (value : list N) : str :=
  let code := flat_map hex value in
  bs "Character entity representing '" ++ encode value ++ bs "', unicode equivalent '" ++
  bs "U+" ++ repeat 48%N (4 - length code) ++ code ++ bs "'".
Definition get_entity_hover (r : range) (o : nat) : res (option hover) :=
  do cur <- filter_entity o;
  Ok (first_some (fun e =>
        if beq cur (bs "&" ++ fst e)
        then Some (mkHover (convert_contents (HMarkup (mkMarkup PlainText (entity_text (snd e))))) (Some r))
        else None) ents).

(** scan_attr_and_attr_value, 470-494 *)
Fixpoint attr_before (fuel : nat) (stop : nat) (sc : scanner) (prev : option str) : res (option str) :=
  match fuel with
  | 0 => OutOfFuel
  | S fuel' =>
      if negb (token_eqb (tok sc) EOS) && (pos sc <=? stop) then
        do sc' <- scan U t false cs sc;
        if token_eqb (tok sc') AttributeName
        then do x <- token_text t sc'; attr_before fuel' stop sc' (Some x)
        else attr_before fuel' stop sc' prev
      else Ok prev
  end.
Definition scan_attr_and_attr_value (start stop : nat) : res (option str) :=
  do sc <- scan U t false cs (scanner_new start WithinContent);
  attr_before (scan_fuel t) stop sc None.

(** do_hover, 49-173 *)
Definition do_hover (p : position) (roots : list node) : res (option hover) :=
  let o := offset_at d p in
  do r <- find_node_at roots o;
  match r with
  | None => Ok None
  | Some (n, _) =>
      match n_tag n with
      | None => Ok None
      | Some tag =>
          match (match n_ets n with Some e => if e <=? o then Some e else None | None => None end) with
          | Some e =>
              do tr <- hover_token_range EndTag e o;
              Ok (match tr with Some x => get_tag_hover tag x | None => None end)
          | None =>
              do tr <- hover_token_range StartTag (n_start n) o;
              match tr with
              | Some x => Ok (get_tag_hover tag x)
              | None =>
                  do ar <- hover_token_range AttributeName (n_start n) o;
                  match ar with
                  | Some x => do a <- get_content d x; Ok (get_attr_hover tag a x)
                  | None =>
                      do er <- get_entity_range p o;
                      match er with
                      | Some x => get_entity_hover x o
                      | None =>
                          do vr <- hover_token_range AttributeValue (n_start n) o;
                          do h <- (match vr with
                                   | Some x =>
                                       do v <- get_content d x;
                                       do a <- scan_attr_and_attr_value (n_start n) (offset_at d (r_start x));
                                       Ok (match a with
                                           | Some a => Some (get_attr_value_hover tag a (trim_quotes v) x)
                                           | None => None
                                           end)
                                   | None => Ok None
                                   end);
                          match h with
                          | Some h => Ok h
                          | None => Ok (first_some hp_content parts)
                          end
                      end
                  end
              end
          end
      end
  end.
End Hover.
