(** * Formatter: /repo/src/services/html_formatter.rs and
    /repo/src/beautify/beautify_html.rs *)
From Verif Require Import Base Stream Scanner Tree Parser TextDoc.

(** HTMLFormatConfiguration, html_formatter.rs:148-167 (the bounds of u8 and usize
    are not modelled) *)
Record format_options := mkFmt {
  tab_size : nat;
  insert_spaces : bool;
  indent_empty_lines : bool;
  wrap_line_length : option nat;
  wrap_attributes_indent_size : option nat;
  preserve_new_lines : bool;
  max_preserve_new_lines : option nat;
  end_with_newline : bool
}.
(** Default, html_formatter.rs:169-191 (32786 is written 32 * 1024 + 18) *)
Definition default_options : format_options :=
  mkFmt 4 true false (Some 120) None true (Some (32 * 1024 + 18)) false.

(** ** Strings *)
Definition SP : N := 32.
Definition TAB : N := 9.
Definition LF : N := 10.
Definition CR : N := 13.
(** str::repeat of one character *)
Definition rep (b : N) (n : nat) : str := repeat b n.

Fixpoint drop_while (p : N -> bool) (l : list N) : list N :=
  match l with c :: r => if p c then drop_while p r else l | [] => [] end.
(** str::trim_start and str::trim on characters *)
Definition trim_start_chars (l : list N) : list N := drop_while is_uspace l.
Definition trim_chars (l : list N) : list N :=
  rev (drop_while is_uspace (rev (drop_while is_uspace l))).
(** Regex [\s+] replaced by one space everywhere *)
Fixpoint collapse_chars (in_space : bool) (l : list N) : list N :=
  match l with
  | [] => []
  | c :: r => if is_uspace c
              then if in_space then collapse_chars true r else SP :: collapse_chars true r
              else c :: collapse_chars false r
  end.
Definition trim_start (s : str) : str := encode (trim_start_chars (decode s)).
Definition trim (s : str) : str := encode (trim_chars (decode s)).
Definition collapse (s : str) : str := encode (collapse_chars false (decode s)).

(** [split] at line feeds: always at least one part *)
Fixpoint split_lf (s : str) : list str :=
  match s with
  | [] => [[]]
  | b :: r => if N.eqb b LF then [] :: split_lf r
              else match split_lf r with l :: ls => (b :: l) :: ls | [] => [[b]] end
  end.
(** [join] *)
Fixpoint join (sep : str) (l : list str) : str :=
  match l with [] => [] | [x] => x | x :: r => x ++ sep ++ join sep r end.
(** The parts of str::lines: all but the last end at a line feed and lose one
    carriage return before it; the last is no line when it is empty. *)
Definition strip_cr (s : str) : str :=
  match rev s with b :: r => if N.eqb b CR then rev r else s | [] => s end.
Fixpoint lines_of (parts : list str) : list str :=
  match parts with
  | [] => []
  | [x] => match x with [] => [] | _ => [x] end
  | x :: r => strip_cr x :: lines_of r
  end.
Definition lines (s : str) : list str := lines_of (split_lf s).
(** str::ends_with of a line feed *)
Definition ends_lf (s : str) : bool :=
  match rev s with b :: _ => N.eqb b LF | [] => false end.

(** ** beautify_html.rs *)
Section Beautify.
Variable content : str.
Variable o : format_options.

(** get_indent, 154-160 *)
Definition get_indent (level : nat) : str :=
  if insert_spaces o then rep SP (tab_size o * level) else rep TAB level.

(** get_attr_indent, 162-178: with tabs a line feed is added, not a tab *)
Definition get_attr_indent (level : nat) : str :=
  get_indent level ++
  match wrap_attributes_indent_size o with
  | Some n => if insert_spaces o then rep SP n else if 0 <? n then [LF] else []
  | None => if insert_spaces o then rep SP (tab_size o) else [LF]
  end.

(** The test of 133-137 *)
Definition keep_empty_line (preserve_count : nat) : bool :=
  preserve_new_lines o &&
  match max_preserve_new_lines o with None => true | Some v => preserve_count <? v end.

(** The loop of 126-147. [i] is the index of the line, [count] the number of lines. *)
Fixpoint text_lines (level count : nat) (ends : bool) (i preserve_count : nat) (ls : list str) : str :=
  match ls with
  | [] => []
  | l :: r =>
      let line := collapse (trim l) in
      if 0 <? length line then
        [LF] ++ get_indent level ++ line ++ text_lines level count ends (S i) 0 r
      else if negb (i =? 0) && (negb (i =? count - 1) || ends) && keep_empty_line preserve_count then
        [LF] ++ (if indent_empty_lines o then get_indent level else [])
             ++ text_lines level count ends (S i) (S preserve_count) r
      else text_lines level count ends (S i) (if i =? 0 then preserve_count else S preserve_count) r
  end.

(** beautify_text, 118-152 *)
Definition beautify_text (text : str) (level : nat) : str :=
  if contains_byte LF text then
    text_lines level (length (lines text)) (ends_lf text) 0 0 (lines text)
  else collapse (trim text).

(** The loop of 244-250; the order of the attributes does not matter for the sum *)
Definition attr_len (x : str * attribute) : nat :=
  match a_value (snd x) with
  | Some v => 1 + length (fst x) + 1 + length v
  | None => 1 + length (fst x)
  end.
Definition attrs_len (n : node) : nat := fold_right (fun x s => attr_len x + s) 0 (n_attrs n).

(** get_left_tag_len, 232-257 *)
Definition get_left_tag_len (n : node) (level : nat) : option nat :=
  match n_tag n with
  | None => None
  | Some tag =>
      Some (length (get_indent level) + 1 + length tag + attrs_len n +
            (if is_self_closing n then 3 else 1))
  end.

(** node_attrs_is_wrap, 220-230 *)
Definition node_attrs_is_wrap (n : node) (level : nat) : bool :=
  match wrap_line_length o with
  | None => false
  | Some w => match get_left_tag_len n level with Some total => w <? total | None => false end
  end.

(** node_is_wrap, 184-218. [text] is [content[start_tag_end..end_tag_start]]; it is
    only called for elements with an end tag, so that [is_self_closing] is false. *)
Definition node_is_wrap (n : node) (level : nat) (text : str) : bool :=
  contains_byte LF text ||
  match wrap_line_length o, n_tag n, get_left_tag_len n level with
  | Some w, Some tag, Some left_len => w <? left_len + length text + 2 + length tag + 2
  | _, _, _ => false
  end.

(** The attributes, 34-59 *)
Definition format_attr (wrap : bool) (level : nat) (n : node) (name : str) : str :=
  (if wrap then [LF] ++ get_attr_indent level else [SP]) ++ name ++
  match attr_get name (n_attrs n) with
  | Some (mkAttr (Some v) _) => bs "=" ++ v
  | _ => []
  end.
Definition format_attrs (wrap : bool) (level : nat) (n : node) : str :=
  flat_map (format_attr wrap level n) (attribute_names_by_order n).

(** beautify_node, 27-116 *)
Fixpoint beautify_node (n : node) (level : nat) {struct n} : res str :=
  match n with
  | mkNode n_tag' n_start' n_end' n_children' n_closed' n_ste' n_ets' n_attrs' =>
  let n := mkNode n_tag' n_start' n_end' n_children' n_closed' n_ste' n_ets' n_attrs' in
  do tag <- unwrap n_tag';
  let wrap := node_attrs_is_wrap n level in
  let attrs := format_attrs wrap level n in
  let indent := get_indent level in
  match n_ets' with
  | None =>
      if wrap then Ok (indent ++ bs "<" ++ tag ++ attrs ++ [LF] ++ indent ++ bs "/>")
      else Ok (indent ++ bs "<" ++ tag ++ attrs ++ bs " />")
  | Some ets =>
      do ste <- unwrap n_ste';
      do children <-
        (fix go (prev : nat) (l : list node) : res str :=
           match l with
           | [] => Ok []
           | c :: r =>
               do text <- slice content prev (n_start c);
               do x <- beautify_node c (S level);
               do rest <- match r with
                          | [] => do text <- slice content (n_end c) ets;
                                  Ok (beautify_text text (S level))
                          | _ :: _ => go (n_end c) r
                          end;
               Ok (beautify_text text (S level) ++ [LF] ++ x ++ rest)
           end) ste n_children';
      do inner <- slice content ste ets;
      let is_wrap := node_is_wrap n level inner in
      let children :=
        children ++
        (if (length n_children' =? 0) && negb (ste =? ets) then
           let text := beautify_text inner (S level) in
           if is_wrap && (0 <? length (trim text))
           then [LF] ++ get_indent (S level) ++ trim_start text
           else text
         else []) in
      if wrap then
        Ok (indent ++ bs "<" ++ tag ++ attrs ++ [LF] ++ indent ++ bs ">" ++ children
            ++ [LF] ++ indent ++ bs "</" ++ tag ++ bs ">")
      else if is_wrap then
        Ok (indent ++ bs "<" ++ tag ++ attrs ++ bs ">" ++ children
            ++ [LF] ++ indent ++ bs "</" ++ tag ++ bs ">")
      else
        Ok (indent ++ bs "<" ++ tag ++ attrs ++ bs ">" ++ children ++ bs "</" ++ tag ++ bs ">")
  end
  end.

Fixpoint beautify_roots (l : list node) : res str :=
  match l with
  | [] => Ok []
  | n :: r => do x <- beautify_node n 0; do y <- beautify_roots r; Ok (x ++ y)
  end.
End Beautify.

(** html_beautify, 9-25: the default data manager, so the built-in void elements *)
Definition html_beautify (U : unicode) (content : str) (o : format_options) (cs : bool) : res str :=
  do roots <- parse U content cs html5_void;
  do x <- beautify_roots content o roots;
  Ok (if negb (ends_lf x) && end_with_newline o then x ++ [LF] else x).

(** ** html_formatter.rs *)
(** lsp_types::TextEdit *)
Record text_edit := mkEdit { te_range : range; te_text : str }.

Definition is_byte_at (t : str) (i : nat) (p : N -> bool) : bool :=
  match str_get t i (i + 1) with Some [b] => p b | _ => false end.
(** is_eol, 139-141 *)
Definition is_eol (t : str) (i : nat) : bool := is_byte_at t i (N.eqb LF).
(** is_whitespace, 143-146 *)
Definition is_blank (t : str) (i : nat) : bool := is_byte_at t i (fun b => N.eqb b SP || N.eqb b TAB).

(** The loop of 21-23 *)
Fixpoint extend_left (t : str) (i : nat) : nat :=
  match i with 0 => 0 | S k => if is_blank t k then extend_left t k else i end.
(** The loop of 36-38; [k] is the distance to the end of the text *)
Fixpoint extend_right (t : str) (k i : nat) : nat :=
  match k with
  | 0 => i
  | S k' => if is_blank t i then extend_right t k' (S i) else i
  end.
(** html_formatter.rs:17-31 *)
Definition extended_start (t : str) (start : nat) : nat :=
  let e := extend_left t start in
  if (e =? 0) || is_eol t (e - 1) then e
  else if e <? start then e + 1 else start.
(** html_formatter.rs:34-41 *)
Definition extended_end (t : str) (end_ : nat) : nat :=
  let e := extend_right t (length t - end_) end_ in
  if (e =? length t) || is_eol t e then e else end_.

(** Regex [.*[<][^>]*$]: a '<' without a '>' after it *)
Fixpoint lt_first (s : str) : bool :=
  match s with
  | [] => false
  | b :: r => if N.eqb b 60 then true else if N.eqb b 62 then false else lt_first r
  end.
Definition inside_tag (s : str) : bool := lt_first (rev s).

(** The loop of 125-135 *)
Fixpoint count_indent (tab k : nat) (s : str) : res nat :=
  match k with
  | 0 => Ok 0
  | S k' =>
      match s with
      | [] => Panic PUnwrap
      | b :: r => if N.eqb b SP then do m <- count_indent tab k' r; Ok (1 + m)
                  else if N.eqb b TAB then do m <- count_indent tab k' r; Ok (tab + m)
                  else Ok 0
      end
  end.
(** compute_indent_level, 119-137: it starts one byte before [offset] *)
Definition compute_indent_level (t : str) (offset : nat) (o : format_options) : res nat :=
  do i <- usub offset 1;
  do n <- count_indent (tab_size o) (length t - offset) (skipn i t);
  if tab_size o =? 0 then Panic PDivZero else Ok (n / tab_size o).

(** trim_left, 115-117 *)
Definition trim_left (s : str) : str := skipn (char_run is_uspace s) s.

(** html_formatter.rs:89-110 *)
Definition reindent (o : format_options) (level : nat) (at_line_start : bool) (s : str) : str :=
  if 0 <? level then
    let indent := if insert_spaces o then rep SP (tab_size o * level) else rep TAB level in
    let s' := if ends_lf s
              then join (LF :: indent) (split_lf (firstn (length s - 1) s)) ++ [LF]
              else join (LF :: indent) (split_lf s) in
    if at_line_start then indent ++ s' else s'
  else s.

(** The rest of [format] once the text, its range and the indent level are known, 87-112 *)
Definition format_value (U : unicode) (o : format_options) (cs : bool) (value : str) (r : range)
  (level : nat) : res (list text_edit) :=
  do result <- html_beautify U (trim_left value) o cs;
  Ok [mkEdit r (reindent o level (character (r_start r) =? 0) result)].

(** format, 7-113 *)
Definition format (U : unicode) (d : textdoc) (r : option range) (o : format_options) (cs : bool)
  : res (list text_edit) :=
  let t := d_text d in
  match r with
  | None => format_value U o cs t (mkRange (mkPos 0 0) (position_at d (length t))) 0
  | Some r =>
      let start := extended_start t (offset_at d (r_start r)) in
      let end_ := extended_end t (offset_at d (r_end r)) in
      do before <- usub start 1;
      let p := position_at d start in
      let r' := mkRange (if is_eol t before then mkPos (line p + 1) 0 else p) (position_at d end_) in
      do first_half <- slice t 0 start;
      do value <- slice t start end_;
      if inside_tag first_half then Ok [mkEdit r' value]
      else
        (* 73-78: [start] is not 0 here *)
        do level <- compute_indent_level t (offset_at d (mkPos (line (r_start r')) 0)) o;
        format_value U o cs value r' level
  end.
