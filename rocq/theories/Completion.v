(** * Completion: /repo/src/services/html_completion.rs *)
From Verif Require Import Base Stream Scanner Tree Parser TextDoc SelectionRange DataManager Entities Hover.

(** ** lsp_types *)
Inductive item_kind := KProperty | KFunction | KValue | KUnit | KKeyword.
Inductive documentation := DocString (s : str) | DocMarkup (m : markup).
Inductive text_format := FPlain | FSnippet.
(** CompletionItem: the fields the code sets. [ci_edit] is a TextEdit, [ci_command] says
    whether the command "editor.action.triggerSuggest" is attached. *)
Record item := mkItem {
  ci_label : str;
  ci_kind : option item_kind;
  ci_doc : option documentation;
  ci_filter : option str;
  ci_edit : option (range * str);
  ci_format : option text_format;
  ci_command : bool
}.

(** ** Settings, 1068-1079 *)
Inductive quotes := QNone | QSingle | QDouble.
Record completion_settings := mkCS {
  cs_hide_auto : bool;
  cs_quotes : quotes;
  cs_provider : list (str * bool)      (* HashMap: unique keys *)
}.
(** ICompletionParticipant, participant.rs:6-9: what it answers; the document, the tree
    and the position are those of the request. *)
Record completion_participant := mkCP {
  cp_value : str -> str -> str -> range -> list item;   (* tag, attribute, value, range *)
  cp_content : list item
}.

(** ** Helpers of the file *)
(** [text.get(a..a + 1)]: one byte that is a character by itself. *)
Definition get1 (t : str) (i : nat) : option N :=
  match nth_error t i with
  | Some b => if (b <? 128)%N then Some b else None
  | None => None
  end.
(** is_white_space on a string of one character, 1029-1031: REG_WHITE_SPACE is [^\s*$]. *)
Definition white (b : N) : bool := is_uspace b.
(** is_quote on a string of one character, 1033-1035: REG_QUOTE matches any
    number of single and double quotes. *)
Definition quote_char (b : N) : bool := ((b =? 34) || (b =? 39))%N.
(** get_word_start, 1052-1058, and get_word_end, 1060-1066. The slices of one byte panic
    inside a longer character. *)
Fixpoint get_word_start (t : str) (limit o : nat) : res nat :=
  match o with
  | 0 => Ok o
  | S k =>
      if limit <? o then
        match get1 t k with
        | None => Panic PSlice
        | Some b => if white b then Ok o else get_word_start t limit k
        end
      else Ok o
  end.
Fixpoint get_word_end (t : str) (fuel : nat) (limit o : nat) : res nat :=
  match fuel with
  | 0 => Ok o
  | S fuel' =>
      if o <? limit then
        match get1 t o with
        | None => Panic PSlice
        | Some b => if white b then Ok o else get_word_end t fuel' limit (o + 1)
        end
      else Ok o
  end.
(** get_line_indent, 1011-1026. A piece of a longer character is passed over. *)
Fixpoint line_indent_start (t : str) (o : nat) : option nat :=
  match o with
  | 0 => Some 0
  | S k =>
      match get1 t k with
      | Some b => if (b =? 10)%N then Some o
                  else if white b then line_indent_start t k else None
      | None => line_indent_start t k
      end
  end.
Definition get_line_indent (t : str) (o : nat) : res (option str) :=
  match line_indent_start t o with
  | None => Ok None
  | Some a => do s <- slice t a o; Ok (Some s)
  end.
(** The loop of 554-562: from [o] on while below [limit] and not at '<'. *)
Fixpoint replace_end_from (t : str) (fuel : nat) (limit o : nat) : nat :=
  match fuel with
  | 0 => o
  | S fuel' =>
      if o <? limit then
        match get1 t o with
        | Some b => if (b =? 60)%N then o else replace_end_from t fuel' limit (o + 1)
        | None => o
        end
      else o
  end.
(** [str.starts_with("data-")] and [ends_with(";")] *)
Definition ends_with (b : N) (s : str) : bool := match rev s with x :: _ => (x =? b)%N | [] => false end.

Section Completion.
Variables (U : unicode) (d : textdoc) (cs : bool).
(** self: supports_markdown, completion_participants *)
Variables (md : bool) (parts : list completion_participant).
(** data_manager.get_data_providers(), the language of the document *)
Variables (providers : list provider) (lang : str).
(** html_entities::ENTITIES *)
Variable ents : list (str * list N).
Variable settings : option completion_settings.
(** The order in which the HashMap of data attributes is iterated, 687. *)
Variable order : list (str * str) -> list (str * str).
Variable roots : list node.
Let t := d_text d.

(** The providers used, 66-79 *)
Definition enabled (p : provider) : bool :=
  match settings with
  | None => true
  | Some s => match assoc (pv_id p) (cs_provider s) with None => true | Some b => b end
  end.
Definition used : list provider := filter (fun p => pv_applicable p lang && enabled p) providers.
Definition the_quotes : quotes := match settings with Some s => cs_quotes s | None => QDouble end.
Definition void_list : list str := get_void_elements providers lang.

(** is_followed_by, 1037-1050 *)
Fixpoint followed (fuel : nat) (expected : token_type) (sc : scanner) : res bool :=
  match fuel with
  | 0 => OutOfFuel
  | S fuel' =>
      do sc' <- scan U t false cs sc;
      if token_eqb (tok sc') Whitespace then followed fuel' expected sc'
      else Ok (token_eqb (tok sc') expected)
  end.
Definition is_followed_by (o : nat) (s : sstate) (expected : token_type) : res bool :=
  followed (scan_fuel t) expected (scanner_new o s).

Section Request.
Variables (p : position) (o : nat).     (* o = offset_at d p *)
Variables (n : node) (ps : list node).  (* node and parent_list, outermost first *)

(** get_replace_range, 481-490 *)
Definition replace_range (a b : nat) : range := range_at d (Nat.min a o) b.
Definition as_doc (m : option markup) : option documentation :=
  match m with Some m => Some (DocMarkup m) | None => None end.

(** collect_open_tag_suggestions, 513-546: [does_support_markdown] is always true. *)
Definition tag_item (r : range) (td : tag_data) : item :=
  mkItem (t_name td) (Some KProperty) (as_doc (generate_documentation (t_desc td) (t_refs td) true true true))
    None (Some (r, t_name td)) (Some FPlain) false.
Definition open_tag_items (a b : nat) : list item :=
  flat_map (fun q => map (tag_item (replace_range a b)) (pv_tags q)) used.

(** collect_close_tag_suggestions, 814-909. The search for the first open element; its item. *)
Definition open_at (x : node) : bool :=
  match n_tag x with
  | None => false
  | Some _ => negb (n_closed x) || match n_ets x with Some e => o <? e | None => false end
  end.
Definition close_item (a b : nat) (close : str) (x : node) (tag : str) : res item :=
  let r := replace_range a b in
  do si <- get_line_indent t (n_start x);
  do a1 <- usub a 1;
  do ei <- get_line_indent t a1;
  let simple := mkItem (bs "/" ++ tag) (Some KProperty) None (Some (bs "/" ++ tag))
                  (Some (r, bs "/" ++ tag ++ close)) (Some FPlain) false in
  match si, ei with
  | Some si, Some ei =>
      if beq si ei then Ok simple
      else do a2 <- usub a1 (length ei);
           Ok (mkItem (bs "/" ++ tag) (Some KProperty) None (Some (ei ++ bs "</" ++ tag))
                 (Some (replace_range a2 o, si ++ bs "</" ++ tag ++ close)) (Some FPlain) false)
  | _, _ => Ok simple
  end.
Definition end_tag_item (td : tag_data) : item :=
  mkItem (bs "/" ++ t_name td) (Some KProperty)
    (as_doc (generate_documentation (t_desc td) (t_refs td) true true md)) None None None false.
Definition close_tag_items (a : nat) (in_open_tag : bool) (b : nat) : res (list item) :=
  do f <- is_followed_by b WithinEndTag EndTagClose;
  let close := if f then [] else bs ">" in
  let up := if in_open_tag then rev ps else n :: rev ps in
  match find open_at up with
  | Some x =>
      match n_tag x with
      | Some tag => do i <- close_item a b close x tag; Ok [i]
      | None => Panic PUnwrap
      end
  | None =>
      Ok (if in_open_tag then [] else flat_map (fun q => map end_tag_item (pv_tags q)) used)
  end.
(** collect_tag_suggestions, 508-511 *)
Definition tag_items (a b : nat) : res (list item) :=
  do l <- close_tag_items a true b; Ok (open_tag_items a b ++ l).

(** collect_attribute_name_suggestions, 548-653; [existing] is the HashMap, newest first. *)
Definition attr_item (r : range) (value : str) (a : attr_data) : item :=
  let plain := (match a_set a with Some s => beq s (bs "v") | None => false end) ||
               match value with [] => true | _ => false end in
  mkItem (a_name a)
    (Some (if match a_set a with Some s => beq s (bs "handler") | None => false end then KFunction else KValue))
    (as_doc (generate_documentation (a_desc a) (a_refs a) true true md)) None
    (Some (r, if plain then a_name a else a_name a ++ value)) (Some FSnippet)
    (negb plain && (is_some (a_set a) || beq (a_name a) (bs "style"))).
(** Which attributes are proposed, and the map after it. *)
Fixpoint new_attrs (existing : list (str * bool)) (l : list attr_data) : list attr_data * list (str * bool) :=
  match l with
  | [] => ([], existing)
  | a :: r =>
      if match assoc (a_name a) existing with Some b => b | None => false end
      then new_attrs existing r
      else let (m, e) := new_attrs ((a_name a, true) :: existing) r in (a :: m, e)
  end.
(** collect_data_attributes_suggestions, 655-699 *)
Definition data_prefix : str := bs "data-".
Definition add_data (existing : list (str * bool)) (m : list (str * str)) (x : str) : list (str * str) :=
  if is_prefix data_prefix x && negb (is_some (assoc x m)) && negb (is_some (assoc x existing))
  then (x, x ++ bs "=""$1""") :: m else m.
(** add_node_data_attributes, 664-681: the names on the nodes in document order. *)
Fixpoint all_attr_names (x : node) : list str :=
  match x with
  | mkNode _ _ _ ch _ _ _ attrs => map fst attrs ++ flat_map all_attr_names ch
  end.
Definition data_attrs (existing : list (str * bool)) : list (str * str) :=
  fold_left (add_data existing) (flat_map all_attr_names roots)
    [(data_prefix, data_prefix ++ bs "$1=""$2""")].
Definition data_item (r : range) (e : str * str) : item :=
  mkItem (fst e) (Some KValue) None None (Some (r, snd e)) (Some FSnippet) false.
Definition attr_name_items (tag : option str) (a b : nat) : res (list item) :=
  let re := replace_end_from t (length t) b o in
  do cur <- (if b <? a then slice t b a else slice t a b);
  let r := replace_range a re in
  do f <- is_followed_by b AfterAttributeName DelimiterAssign;
  let value := if f then [] else
               match the_quotes with QNone => bs "=$1" | QSingle => bs "='$1'" | QDouble => bs "=""$1""" end in
  let existing := (cur, false) :: map (fun x => (x, true)) (attribute_names n) in
  do proposed <- (match used, tag with
                  | [], _ => Ok ([], existing)
                  | _ :: _, None => Panic PUnwrap
                  | us, Some x => Ok (new_attrs existing (flat_map (fun q => pv_attributes q x) us))
                  end);
  Ok (map (attr_item r value) (fst proposed) ++ map (data_item r) (order (data_attrs (snd proposed)))).

(** collect_attribute_value_suggestions, 701-812 *)
Definition value_item (r : range) (add_quotes : bool) (v : value_data) : item :=
  let txt := if add_quotes then bs """" ++ v_name v ++ bs """" else v_name v in
  mkItem (v_name v) (Some KUnit) (as_doc (generate_documentation (v_desc v) (v_refs v) true true md))
    (Some txt) (Some (r, txt)) (Some FPlain) false.
Definition attr_value_items (tag : option str) (attr : str) (a b : nat) : res (list item) :=
  do quoted <- (if (a <? o) && (o <=? b)
                then match get1 t a with Some c => Ok (quote_char c) | None => Panic PSlice end
                else Ok false);
  do rv <- (if quoted : bool then
              let ca := a + 1 in
              let cb := if (a <? b) && (match get1 t (b - 1), get1 t a with
                                        | Some x, Some y => (x =? y)%N
                                        | None, None => true
                                        | _, _ => false
                                        end)
                        then b - 1 else b in
              do ws <- get_word_start t ca o;
              do we <- get_word_end t (length t) cb o;
              do pre <- (if (ca <=? o) && (o <? cb) then slice t ca o else Ok []);
              Ok (replace_range ws we, pre, false)
            else
              do pre <- slice t a o;
              Ok (replace_range a b, pre, true));
  let '(r, prefix, add_quotes) := rv in
  let tag0 := match tag with Some x => x | None => [] end in
  let from_parts := flat_map (fun q => cp_value q (fold_name U cs tag0) (fold_name U cs attr) prefix (replace_range a b)) parts in
  Ok (from_parts ++ flat_map (fun q => map (value_item r add_quotes) (pv_values q tag0 attr)) used).

(** collect_auto_close_tag_suggestion, 911-933 *)
Definition auto_close_items (e : nat) (tag : str) : list item :=
  if match settings with Some s => cs_hide_auto s | None => false end then []
  else if is_void_element tag void_list then []
  else [mkItem (bs "</" ++ tag ++ bs ">") (Some KProperty) None (Some (bs "</" ++ tag ++ bs ">"))
          (Some (range_at d e e, bs "$0</" ++ tag ++ bs ">")) (Some FSnippet) false].

(** collect_character_entity_proposals, 948-984. The order of the HashMap is that of [ents]. *)
Definition entity_item (r : range) (e : str * list N) : item :=
  mkItem (bs "&" ++ fst e) (Some KKeyword)
    (Some (DocString (bs "Character entity representing '" ++ encode (snd e)))) None
    (Some (r, bs "&" ++ fst e)) (Some FPlain) false.
Definition entity_items : res (list item) :=
  let k := alnum_left t o in
  do c0 <- usub (character p) (o - k);
  match k with
  | 0 => Ok []
  | S k' =>
      match nth_error t k' with
      | Some b =>
          if (b =? 38)%N then
            do c1 <- usub c0 1;
            let r := mkRange (mkPos (line p) c1) p in
            Ok (map (entity_item r) (filter (fun e => ends_with 59 (fst e)) ents))
          else Ok []
      | None => Ok []
      end
  end.
(** collect_inside_content, 935-946 *)
Definition content_items : res (list item) :=
  do l <- entity_items; Ok (flat_map cp_content parts ++ l).

(** suggest_doctype, 986-1001 *)
Definition doctype_item (a b : nat) : item :=
  mkItem (bs "!DOCTYPE") (Some KProperty) (Some (DocString (bs "A preamble for an HTML document.")))
    None (Some (replace_range a b, bs "!DOCTYPE html>")) (Some FPlain) false.

(** scan_next_for_end_pos, 492-506 *)
Definition next_end_pos (sc : scanner) (next : token_type) : res nat :=
  if o =? pos sc then
    do sc' <- scan U t true cs sc;
    if token_eqb (tok sc') next && (tok_off sc' =? o) then Ok (pos sc') else Ok o
  else Ok o.

(** The search for the '/' before an end tag's name, 283-298 *)
Fixpoint slash_before (k : nat) : res (option nat) :=
  match k with
  | 0 => Ok None
  | S k' =>
      match get1 t k with
      | None => Panic PUnwrap
      | Some b => if (b =? 47)%N then Ok (Some k)
                  else if white b then slash_before k' else Ok None
      end
  end.

(** One pass of the loop of do_complete, 124-306, on the token in [sc]: [Some] is the
    result to return; otherwise the current tag and attribute. *)
Definition complete_step (sc : scanner) (tag : option str) (attr : str)
  : res (option (list item) * option str * str) :=
  let a := tok_off sc in let b := pos sc in
  let done (l : res (list item)) := do i <- l; Ok (Some i, tag, attr) in
  let next := Ok (None, tag, attr) in
  match tok sc with
  | StartTagOpen =>
      if b =? o then
        do e <- next_end_pos sc StartTag;
        let dt := if line p =? 0 then [doctype_item o e] else [] in
        done (do l <- tag_items o e; Ok (dt ++ l))
      else next
  | StartTag =>
      if (a <=? o) && (o <=? b) then done (Ok (open_tag_items a b))
      else do x <- token_text t sc; Ok (None, Some x, attr)
  | AttributeName =>
      if (a <=? o) && (o <=? b) then done (attr_name_items tag a b)
      else do x <- token_text t sc; Ok (None, tag, x)
  | DelimiterAssign =>
      if b =? o then
        do e <- next_end_pos sc AttributeValue; done (attr_value_items tag attr o e)
      else next
  | AttributeValue =>
      if (a <=? o) && (o <=? b) then done (attr_value_items tag attr a b) else next
  | Whitespace =>
      if o <=? b then
        match st sc with
        | AfterOpeningStartTag => do e <- next_end_pos sc StartTag; done (tag_items a e)
        | WithinTag | AfterAttributeName => done (attr_name_items tag b o)
        | BeforeAttributeValue => done (attr_value_items tag attr b o)
        | AfterOpeningEndTag => do a1 <- usub a 1; done (close_tag_items a1 false o)
        | WithinContent => done content_items
        | _ => next
        end
      else next
  | StartTagClose =>
      if o <=? b then
        match tag with Some x => done (Ok (auto_close_items b x)) | None => next end
      else next
  | Content => if o <=? b then done content_items else next
  | EndTagOpen =>
      if o <=? b then
        do e <- next_end_pos sc EndTag; done (close_tag_items (a + 1) false e)
      else next
  | EndTag =>
      if o <=? b then
        do k <- usub a 1;
        do s <- slash_before k;
        match s with
        | Some q => done (close_tag_items q false b)
        | None => next
        end
      else next
  | _ => if o <? b then done (Ok []) else next
  end.
(** The loop, 121-308; [sc] holds the token scanned last. *)
Fixpoint complete_loop (fuel : nat) (sc : scanner) (tag : option str) (attr : str) : res (list item) :=
  match fuel with
  | 0 => OutOfFuel
  | S fuel' =>
      if negb (token_eqb (tok sc) EOS) && (tok_off sc <? o) then
        do x <- complete_step sc tag attr;
        let '(r, tag', attr') := x in
        match r with
        | Some l => Ok l
        | None => do sc' <- scan U t true cs sc; complete_loop fuel' sc' tag' attr'
        end
      else Ok []
  end.
End Request.

(** do_complete, 56-311 *)
Definition do_complete (p : position) : res (list item) :=
  let o := offset_at d p in
  do f <- find_node_before roots o;
  match f with
  | None => Ok []
  | Some (n, ps) =>
      do sc <- scan U t true cs (scanner_new (n_start n) WithinContent);
      complete_loop p o n ps (scan_fuel t) sc None []
  end.

(** do_quote_complete, 313-372. The loop of 353-369. *)
Fixpoint quote_loop (fuel : nat) (o : nat) (value : str) (sc : scanner) : res (option str) :=
  match fuel with
  | 0 => OutOfFuel
  | S fuel' =>
      if negb (token_eqb (tok sc) EOS) && (pos sc <=? o) then
        if token_eqb (tok sc) AttributeName && (pos sc =? o - 1) then
          do s1 <- scan U t false cs sc;
          if negb (token_eqb (tok s1) DelimiterAssign) then Ok None
          else do s2 <- scan U t false cs s1;
               if token_eqb (tok s2) Unknown || token_eqb (tok s2) AttributeValue then Ok None
               else Ok (Some value)
        else do sc' <- scan U t false cs sc; quote_loop fuel' o value sc'
      else Ok None
  end.
Definition open_below (x : node) (o : nat) : bool :=
  (n_start x <? o) && negb (match n_ets x with Some e => e <=? o | None => false end).
Definition do_quote_complete (p : position) : res (option str) :=
  let o := offset_at d p in
  match o with
  | 0 => Ok None
  | S k =>
      match get1 t k with
      | Some b =>
          if (b =? 61)%N then
            match the_quotes with
            | QNone => Ok None
            | q =>
                let value := match q with QDouble => bs """$1""" | _ => bs "'$1'" end in
                do f <- find_node_before roots o;
                match f with
                | None => Ok None
                | Some (x, _) =>
                    if open_below x o then
                      do sc <- scan U t false cs (scanner_new (n_start x) WithinContent);
                      quote_loop (scan_fuel t) o value sc
                    else Ok None
                end
            end
          else Ok None
      | None => Ok None
      end
  end.

(** do_tag_complete, 374-445. The loop of 403-409 and 432-442: does a token of type [ty]
    end at [o]? *)
Fixpoint ends_at_loop (fuel : nat) (ty : token_type) (o : nat) (sc : scanner) : res bool :=
  match fuel with
  | 0 => OutOfFuel
  | S fuel' =>
      if negb (token_eqb (tok sc) EOS) && (pos sc <=? o) then
        if token_eqb (tok sc) ty && (pos sc =? o) then Ok true
        else do sc' <- scan U t false cs sc; ends_at_loop fuel' ty o sc'
      else Ok false
  end.
Definition ends_at (start : nat) (ty : token_type) (o : nat) : res bool :=
  do sc <- scan U t false cs (scanner_new start WithinContent);
  ends_at_loop (scan_fuel t) ty o sc.
(** The loop of 414-423: the first of the node and its parents that is open. *)
Definition unclosed (o : nat) (x : node) : bool :=
  negb (n_closed x) || match n_ets x with Some e => o <? e | None => false end.
Definition do_tag_complete (p : position) : res (option str) :=
  let o := offset_at d p in
  match o with
  | 0 => Ok None
  | S k =>
      match get1 t k with
      | None => Ok None
      | Some b =>
          if (b =? 62)%N then
            do f <- find_node_before roots o;
            match f with
            | None => Ok None
            | Some (x, _) =>
                match n_tag x with
                | None => Ok None
                | Some tag =>
                    if negb (is_void_element tag void_list) && open_below x o then
                      do e <- ends_at (n_start x) StartTagClose o;
                      Ok (if e then Some (bs "$0</" ++ tag ++ bs ">") else None)
                    else Ok None
                end
            end
          else if (b =? 47)%N then
            do f <- find_node_before roots o;
            match f with
            | None => Ok None
            | Some (x, ps) =>
                match find (unclosed o) (x :: rev ps) with
                | None => Ok None
                | Some y =>
                    match n_tag y with
                    | None => Ok None
                    | Some tag =>
                        do e <- ends_at (n_start y) EndTagOpen o;
                        Ok (if e then Some (tag ++ match get1 t o with
                                                   | Some c => if (c =? 62)%N then [] else bs ">"
                                                   | None => bs ">"
                                                   end)
                            else None)
                    end
                end
            end
          else Ok None
      end
  end.
End Completion.
