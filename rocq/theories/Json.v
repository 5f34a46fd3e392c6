(** * Json: reading and writing custom data, /repo/src/html_data.rs with serde_json
    (html_data.rs:1-66 derives Serialize and Deserialize; web_custom_data.rs:5-7 reads the built-in text with
    serde_json::from_str).
    serde_json and the code serde derives are not in /repo: modelled is what their documentation says, on the whole
    text: the JSON value first, then the structures from it. Simplified: serde reads both in one go and only skims over
    the values of unknown members, so that an unpaired surrogate escape or a number out of range there is no error; and it refuses values nested deeper
    than 128. *)
From Verif Require Import Base DataManager.

(** ** JSON, RFC 8259 *)
(** Numbers are kept as they are written. *)
Inductive json :=
| JNull
| JBool (b : bool)
| JNum (s : str)
| JStr (s : str)
| JArr (l : list json)
| JObj (l : list (str * json)).

(** Insignificant white space *)
Definition is_jws (c : N) : bool := ((c =? 32) || (c =? 10) || (c =? 13) || (c =? 9))%N.
Fixpoint jws (s : str) : str :=
  match s with c :: r => if is_jws c then jws r else s | [] => [] end.

(** Strings: everything behind the opening quote, up to the closing one *)
Definition hexval (c : N) : option N :=
  (if (48 <=? c) && (c <=? 57) then Some (c - 48)
   else if (65 <=? c) && (c <=? 70) then Some (c - 55)
   else if (97 <=? c) && (c <=? 102) then Some (c - 87)
   else None)%N.
Definition hex4 (a b c d : N) : option N :=
  match hexval a, hexval b, hexval c, hexval d with
  | Some a, Some b, Some c, Some d => Some (((a * 16 + b) * 16 + c) * 16 + d)%N
  | _, _, _, _ => None
  end.
Definition is_high (n : N) : bool := ((55296 <=? n) && (n <? 56320))%N.
Definition is_low (n : N) : bool := ((56320 <=? n) && (n <? 57344))%N.
Definition simple_escape (c : N) : option N :=
  (if c =? 34 then Some 34 else if c =? 92 then Some 92 else if c =? 47 then Some 47 else if c =? 98 then Some 8
   else if c =? 102 then Some 12 else if c =? 110 then Some 10 else if c =? 114 then Some 13
   else if c =? 116 then Some 9 else None)%N.
Definition pre_str (x : str) (o : option (str * str)) : option (str * str) :=
  match o with Some (k, r) => Some (x ++ k, r) | None => None end.
Fixpoint jchars (s : str) : option (str * str) :=
  match s with
  | [] => None
  | c :: r =>
      if (c =? 34)%N then Some ([], r)
      else if (c =? 92)%N then
        match r with
        | [] => None
        | e :: r1 =>
            if (e =? 117)%N then
              match r1 with
              | h1 :: h2 :: h3 :: h4 :: r2 =>
                  match hex4 h1 h2 h3 h4 with
                  | None => None
                  | Some n =>
                      if is_low n then None
                      else if is_high n then
                        match r2 with
                        | b :: u :: g1 :: g2 :: g3 :: g4 :: r3 =>
                            if (b =? 92)%N && (u =? 117)%N then
                              match hex4 g1 g2 g3 g4 with
                              | Some m => if is_low m
                                          then pre_str (encode1 (65536 + (n - 55296) * 1024 + (m - 56320))%N) (jchars r3)
                                          else None
                              | None => None
                              end
                            else None
                        | _ => None
                        end
                      else pre_str (encode1 n) (jchars r2)
                  end
              | _ => None
              end
            else match simple_escape e with Some x => pre_str [x] (jchars r1) | None => None end
        end
      else if (c <? 32)%N then None
      else pre_str [c] (jchars r)
  end.

(** Numbers *)
Definition is_dig (c : N) : bool := ((48 <=? c) && (c <=? 57))%N.
Fixpoint digits (s : str) : str * str :=
  match s with
  | c :: r => if is_dig c then let '(a, b) := digits r in (c :: a, b) else ([], s)
  | [] => ([], [])
  end.
Definition jint (s : str) : option (str * str) :=
  match s with
  | c :: r => if (c =? 48)%N then match r with d :: _ => if is_dig d then None else Some ([c], r) | [] => Some ([c], r) end
              else if is_dig c then let '(a, b) := digits r in Some (c :: a, b) else None
  | [] => None
  end.
Definition jfrac (s : str) : option (str * str) :=
  match s with
  | c :: r => if (c =? 46)%N then match digits r with ([], _) => None | (a, b) => Some (c :: a, b) end else Some ([], s)
  | [] => Some ([], s)
  end.
Definition is_sign (c : N) : bool := ((c =? 43) || (c =? 45))%N.
Definition jexp (s : str) : option (str * str) :=
  match s with
  | c :: r =>
      if ((c =? 101) || (c =? 69))%N then
        match r with
        | g :: r' => if is_sign g then match digits r' with ([], _) => None | (a, b) => Some (c :: g :: a, b) end
                     else match digits r with ([], _) => None | (a, b) => Some (c :: a, b) end
        | [] => None
        end
      else Some ([], s)
  | [] => Some ([], s)
  end.
Definition jsign (s : str) : str * str :=
  match s with c :: r => if (c =? 45)%N then ([c], r) else ([], s) | [] => ([], s) end.
Definition jnumber (s : str) : option (str * str) :=
  let '(sg, r) := jsign s in
  match jint r with
  | None => None
  | Some (i, r1) =>
      match jfrac r1 with
      | None => None
      | Some (f, r2) => match jexp r2 with None => None | Some (e, r3) => Some (sg ++ i ++ f ++ e, r3) end
      end
  end.

Fixpoint lit (p s : str) : option str :=
  match p, s with
  | [], _ => Some s
  | a :: p', b :: s' => if (a =? b)%N then lit p' s' else None
  | _, _ => None
  end.

(** Values. [f] bounds the steps; [read_json] gives as many as any text takes (PropJson, C72_grammar). *)
Fixpoint jvalue (f : nat) (s : str) {struct f} : option (json * str) :=
  match f with
  | 0 => None
  | S f =>
      match jws s with
      | [] => None
      | c :: r =>
          if (c =? 34)%N then match jchars r with Some (x, r') => Some (JStr x, r') | None => None end
          else if (c =? 123)%N then
            match jws r with
            | e :: r' => if (e =? 125)%N then Some (JObj [], r')
                         else match jmembers f r with Some (l, r2) => Some (JObj l, r2) | None => None end
            | [] => None
            end
          else if (c =? 91)%N then
            match jws r with
            | e :: r' => if (e =? 93)%N then Some (JArr [], r')
                         else match jelements f r with Some (l, r2) => Some (JArr l, r2) | None => None end
            | [] => None
            end
          else if (c =? 110)%N then match lit (bs "ull") r with Some r' => Some (JNull, r') | None => None end
          else if (c =? 116)%N then match lit (bs "rue") r with Some r' => Some (JBool true, r') | None => None end
          else if (c =? 102)%N then match lit (bs "alse") r with Some r' => Some (JBool false, r') | None => None end
          else match jnumber (c :: r) with Some (n, r') => Some (JNum n, r') | None => None end
      end
  end
with jelements (f : nat) (s : str) {struct f} : option (list json * str) :=
  match f with
  | 0 => None
  | S f =>
      match jvalue f s with
      | None => None
      | Some (v, r) =>
          match jws r with
          | e :: r' => if (e =? 44)%N then match jelements f r' with Some (l, r2) => Some (v :: l, r2) | None => None end
                       else if (e =? 93)%N then Some ([v], r') else None
          | [] => None
          end
      end
  end
with jmembers (f : nat) (s : str) {struct f} : option (list (str * json) * str) :=
  match f with
  | 0 => None
  | S f =>
      match jws s with
      | q :: r0 =>
          if (q =? 34)%N then
            match jchars r0 with
            | None => None
            | Some (k, r1) =>
                match jws r1 with
                | c :: r2 =>
                    if (c =? 58)%N then
                      match jvalue f r2 with
                      | None => None
                      | Some (v, r) =>
                          match jws r with
                          | e :: r' => if (e =? 44)%N then match jmembers f r' with Some (l, r3) => Some ((k, v) :: l, r3) | None => None end
                                       else if (e =? 125)%N then Some ([(k, v)], r') else None
                          | [] => None
                          end
                      end
                    else None
                | [] => None
                end
            end
          else None
      | [] => None
      end
  end.
(** serde_json::from_str: one value, with white space around it *)
Definition read_json (s : str) : option json :=
  match jvalue (2 * length s + 2) s with
  | Some (v, r) => match jws r with [] => Some v | _ => None end
  | None => None
  end.

(** ** Writing, serde_json::to_string *)
Definition hexdig (n : N) : N := (if n <? 10 then 48 + n else 87 + n)%N.
Definition escape1 (c : N) : str :=
  (if c =? 34 then [92; 34] else if c =? 92 then [92; 92] else if c =? 8 then [92; 98] else if c =? 12 then [92; 102]
   else if c =? 10 then [92; 110] else if c =? 13 then [92; 114] else if c =? 9 then [92; 116]
   else if c <? 32 then [92; 117; 48; 48; hexdig (c / 16); hexdig (c mod 16)] else [c])%N.
Definition write_str (s : str) : str := [34%N] ++ flat_map escape1 s ++ [34%N].
Fixpoint write_json (j : json) : str :=
  match j with
  | JNull => bs "null"
  | JBool true => bs "true"
  | JBool false => bs "false"
  | JNum n => n
  | JStr s => write_str s
  | JArr l => [91%N] ++ (fix go l := match l with [] => [] | [x] => write_json x | x :: r => write_json x ++ [44%N] ++ go r end) l ++ [93%N]
  | JObj l => [123%N] ++ (fix go l := match l with
                          | [] => []
                          | [(k, x)] => write_str k ++ [58%N] ++ write_json x
                          | (k, x) :: r => write_str k ++ [58%N] ++ write_json x ++ [44%N] ++ go r
                          end) l ++ [125%N]
  end.

(** ** The structures of html_data.rs *)
(** A derived Deserialize: an object with the members in any order, known ones at most once and others ignored, or an
    array with all of them in the order of their definition. [fields_of] gives the value of each member. *)
Definition count_key (k : str) (l : list (str * json)) : nat := length (filter (fun x => beq k (fst x)) l).
Fixpoint find_key (k : str) (l : list (str * json)) : option json :=
  match l with [] => None | (k', v) :: r => if beq k k' then Some v else find_key k r end.
Definition fields_of (names : list str) (j : json) : option (list (option json)) :=
  match j with
  | JObj l => if forallb (fun n => count_key n l <=? 1) names then Some (map (fun n => find_key n l) names) else None
  | JArr l => if length l =? length names then Some (map Some l) else None
  | _ => None
  end.
Definition obind {A B} (o : option A) (f : A -> option B) : option B := match o with Some a => f a | None => None end.
Notation "'let?' x := e 'in' f" := (obind e (fun x => f)) (at level 200, x pattern, e at level 100, f at level 200, right associativity).
(** A required member, and one of a type Option *)
Definition required {A} (r : json -> option A) (o : option json) : option A := obind o r.
Definition optional {A} (r : json -> option A) (o : option json) : option (option A) :=
  match o with None | Some JNull => Some None | Some j => option_map Some (r j) end.
Fixpoint read_all {A} (r : json -> option A) (l : list json) : option (list A) :=
  match l with [] => Some [] | x :: l => let? a := r x in let? k := read_all r l in Some (a :: k) end.
Definition read_vec {A} (r : json -> option A) (j : json) : option (list A) :=
  match j with JArr l => read_all r l | _ => None end.
Definition read_str (j : json) : option str := match j with JStr s => Some s | _ => None end.
Definition read_bool (j : json) : option bool := match j with JBool b => Some b | _ => None end.

(** IReference, html_data.rs:46-50 *)
Definition read_reference (j : json) : option reference :=
  match fields_of [bs "name"; bs "url"] j with
  | Some [a; b] => let? x := required read_str a in let? y := required read_str b in Some (mkRef x y)
  | _ => None
  end.
(** lsp_types::MarkupKind: the name of the variant, alone or as the key of null *)
Definition kind_of (s : str) : option markup_kind :=
  if beq s (bs "plaintext") then Some PlainText else if beq s (bs "markdown") then Some Markdown else None.
Definition read_kind (j : json) : option markup_kind :=
  match j with JStr s => kind_of s | JObj [(k, JNull)] => kind_of k | _ => None end.
(** lsp_types::MarkupContent *)
Definition read_markup (j : json) : option markup :=
  match fields_of [bs "kind"; bs "value"] j with
  | Some [a; b] => let? x := required read_kind a in let? y := required read_str b in Some (mkMarkup x y)
  | _ => None
  end.
(** Description, 52-57, untagged: the first variant that can be read *)
Definition read_description (j : json) : option description :=
  match read_str j with Some s => Some (DString s) | None => option_map DMarkup (read_markup j) end.
(** IValueData, 39-44 *)
Definition read_value (j : json) : option value_data :=
  match fields_of [bs "name"; bs "description"; bs "references"] j with
  | Some [a; b; c] =>
      let? x := required read_str a in let? y := optional read_description b in
      let? z := optional (read_vec read_reference) c in Some (mkValue x y z)
  | _ => None
  end.
(** IAttributeData, 23-31 *)
Definition read_attr (j : json) : option attr_data :=
  match fields_of [bs "name"; bs "description"; bs "valueSet"; bs "values"; bs "references"] j with
  | Some [a; b; c; d; e] =>
      let? x := required read_str a in let? y := optional read_description b in let? z := optional read_str c in
      let? u := optional (read_vec read_value) d in let? v := optional (read_vec read_reference) e in
      Some (mkAttr x y z u v)
  | _ => None
  end.
(** ITagData, 14-21 *)
Definition read_tag (j : json) : option tag_data :=
  match fields_of [bs "name"; bs "description"; bs "attributes"; bs "references"; bs "void"] j with
  | Some [a; b; c; d; e] =>
      let? x := required read_str a in let? y := optional read_description b in
      let? z := required (read_vec read_attr) c in let? u := optional (read_vec read_reference) d in
      let? v := optional read_bool e in Some (mkTag x y z u v)
  | _ => None
  end.
(** IValueSet, 33-37 *)
Definition read_set (j : json) : option (str * list value_data) :=
  match fields_of [bs "name"; bs "values"] j with
  | Some [a; b] => let? x := required read_str a in let? y := required (read_vec read_value) b in Some (x, y)
  | _ => None
  end.
(** The type f32, its text and what a text stands for: trusted library code *)
Record float_lib := mkFloat {
  fl : Type;
  fl_finite : fl -> bool;
  fl_show : fl -> str;
  fl_read : str -> option fl
}.
(** HTMLDataV1, 4-12 *)
Record data_file (F : float_lib) := mkFile { df_version : fl F; df_data : html_data }.
Arguments mkFile {F}. Arguments df_version {F}. Arguments df_data {F}.
Section File.
Variable F : float_lib.
Definition read_float (j : json) : option (fl F) := match j with JNum s => fl_read F s | _ => None end.
Definition read_file (j : json) : option (data_file F) :=
  match fields_of [bs "version"; bs "tags"; bs "globalAttributes"; bs "valueSets"] j with
  | Some [a; b; c; d] =>
      let? x := required read_float a in let? y := optional (read_vec read_tag) b in
      let? z := optional (read_vec read_attr) c in let? u := optional (read_vec read_set) d in
      Some (mkFile x (mkData y z u))
  | _ => None
  end.
(** serde_json::from_str::<HTMLDataV1> *)
Definition from_str (s : str) : option (data_file F) := obind (read_json s) read_file.

(** The derived Serialize: objects with the members in the order of their definition, None as null *)
Definition jopt {A} (w : A -> json) (o : option A) : json := match o with Some a => w a | None => JNull end.
Definition jlist {A} (w : A -> json) (l : list A) : json := JArr (map w l).
Definition json_reference (r : reference) : json := JObj [(bs "name", JStr (ref_name r)); (bs "url", JStr (ref_url r))].
Definition json_kind (k : markup_kind) : json := JStr (match k with PlainText => bs "plaintext" | Markdown => bs "markdown" end).
Definition json_description (d : description) : json :=
  match d with
  | DString s => JStr s
  | DMarkup m => JObj [(bs "kind", json_kind (mk_kind m)); (bs "value", JStr (mk_value m))]
  end.
Definition json_value (v : value_data) : json :=
  JObj [(bs "name", JStr (v_name v)); (bs "description", jopt json_description (v_desc v));
        (bs "references", jopt (jlist json_reference) (v_refs v))].
Definition json_attr (a : attr_data) : json :=
  JObj [(bs "name", JStr (a_name a)); (bs "description", jopt json_description (a_desc a));
        (bs "valueSet", jopt JStr (a_set a)); (bs "values", jopt (jlist json_value) (a_values a));
        (bs "references", jopt (jlist json_reference) (a_refs a))].
Definition json_tag (t : tag_data) : json :=
  JObj [(bs "name", JStr (t_name t)); (bs "description", jopt json_description (t_desc t));
        (bs "attributes", jlist json_attr (t_attrs t)); (bs "references", jopt (jlist json_reference) (t_refs t));
        (bs "void", jopt JBool (t_void t))].
Definition json_set (s : str * list value_data) : json :=
  JObj [(bs "name", JStr (fst s)); (bs "values", jlist json_value (snd s))].
(** Numbers that are not finite are written as null. *)
Definition json_float (x : fl F) : json := if fl_finite F x then JNum (fl_show F x) else JNull.
Definition json_file (d : data_file F) : json :=
  JObj [(bs "version", json_float (df_version d)); (bs "tags", jopt (jlist json_tag) (hd_tags (df_data d)));
        (bs "globalAttributes", jopt (jlist json_attr) (hd_globals (df_data d)));
        (bs "valueSets", jopt (jlist json_set) (hd_sets (df_data d)))].
(** serde_json::to_string *)
Definition to_string (d : data_file F) : str := write_json (json_file d).
End File.
