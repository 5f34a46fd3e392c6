(** * Well-formed documents, how they are written and the tree they denote

    This is a specification: nothing here models code of /repo.  It fixes what
    "a well-formed document" is for the round-trip properties C21 and C29. *)
From Verif Require Import Base Tree.

(** ** Abstract documents *)
(** The value of an attribute: absent, bare, or between two quotes [q].  White
    space may precede the '='. *)
Inductive hvalue :=
| NoValue
| Bare (gap v : str)
| Quoted (gap : str) (q : N) (v : str).
(** An attribute with the white space before it. *)
Record hattr := mkHAttr { ha_space : str; ha_name : str; ha_value : hvalue }.

Inductive html :=
| HText (s : str)
| HComment (s : str)
| HDoctype (word s : str)
(** an element with a start tag and an end tag; [pad] and [pad2] are the white
    space before the two '>' and [close] is the name in the end tag *)
| HElement (name : str) (attrs : list hattr) (pad : str) (body : list html) (close pad2 : str)
(** script and style elements: their content is not parsed *)
| HRaw (name : str) (attrs : list hattr) (pad : str) (s pad2 : str)
(** a void element *)
| HVoid (name : str) (attrs : list hattr) (pad : str)
(** an element closed by "/>" *)
| HSelf (name : str) (attrs : list hattr) (pad : str).

(** ** Rendering *)
Definition render_value (v : hvalue) : str :=
  match v with
  | NoValue => []
  | Bare gap v => gap ++ bs "=" ++ v
  | Quoted gap q v => gap ++ bs "=" ++ [q] ++ v ++ [q]
  end.
Definition render_attr (a : hattr) : str := ha_space a ++ ha_name a ++ render_value (ha_value a).
Definition render_attrs (l : list hattr) : str := flat_map render_attr l.
Definition start_tag (name : str) (attrs : list hattr) (pad stop : str) : str :=
  bs "<" ++ name ++ render_attrs attrs ++ pad ++ stop.
Definition end_tag (name pad : str) : str := bs "</" ++ name ++ pad ++ bs ">".

Fixpoint render (h : html) : str :=
  match h with
  | HText s => s
  | HComment s => bs "<!--" ++ s ++ bs "-->"
  | HDoctype word s => bs "<!" ++ word ++ s ++ bs ">"
  | HElement name attrs pad body close pad2 =>
      start_tag name attrs pad (bs ">") ++ flat_map render body ++ end_tag close pad2
  | HRaw name attrs pad s pad2 => start_tag name attrs pad (bs ">") ++ s ++ end_tag name pad2
  | HVoid name attrs pad => start_tag name attrs pad (bs ">")
  | HSelf name attrs pad => start_tag name attrs pad (bs "/>")
  end.
Definition render_all (l : list html) : str := flat_map render l.

(** ** The tree a document denotes, rendered from offset [o] *)
Definition value_text (v : hvalue) : option str :=
  match v with
  | NoValue => None
  | Bare _ v => Some v
  | Quoted _ q v => Some ([q] ++ v ++ [q])
  end.
Fixpoint attrs_from (o : nat) (l : list hattr) : list (str * attribute) :=
  match l with
  | [] => []
  | a :: r => (ha_name a, mkAttr (value_text (ha_value a)) (o + length (ha_space a)))
              :: attrs_from (o + length (render_attr a)) r
  end.

Section Nodes.
Variable f : nat -> html -> list node.
Fixpoint nodes_with (o : nat) (l : list html) : list node :=
  match l with
  | [] => []
  | h :: r => f o h ++ nodes_with (o + length (render h)) r
  end.
End Nodes.
Fixpoint nodes_from (o : nat) (h : html) : list node :=
  match h with
  | HText _ | HComment _ | HDoctype _ _ => []
  | HElement name attrs pad body close pad2 =>
      let a := o + length (start_tag name attrs pad (bs ">")) in
      let b := a + length (render_all body) in
      [mkNode (Some name) o (b + length (end_tag close pad2)) (nodes_with nodes_from a body) true
              (Some a) (Some b) (attrs_from (o + 1 + length name) attrs)]
  | HRaw name attrs pad s pad2 =>
      let a := o + length (start_tag name attrs pad (bs ">")) in
      let b := a + length s in
      [mkNode (Some name) o (b + length (end_tag name pad2)) [] true
              (Some a) (Some b) (attrs_from (o + 1 + length name) attrs)]
  | HVoid name attrs pad =>
      let a := o + length (start_tag name attrs pad (bs ">")) in
      [mkNode (Some name) o a [] true (Some a) None (attrs_from (o + 1 + length name) attrs)]
  | HSelf name attrs pad =>
      let a := o + length (start_tag name attrs pad (bs "/>")) in
      [mkNode (Some name) o a [] true (Some a) None (attrs_from (o + 1 + length name) attrs)]
  end.
Definition nodes_all (o : nat) (l : list html) : list node := nodes_with nodes_from o l.

(** ** Well-formedness *)
Definition blank (s : str) : Prop := forall b, In b s -> In b (bs " " ++ [9; 10; 12; 13]%N).
(** A string made of characters that satisfy [f]. *)
Definition made_of (f : N -> Prop) (s : str) : Prop :=
  exists cs, s = encode cs /\ forall c, In c cs -> scalar c = true /\ f c.
Definition occurs (m s : str) : Prop := exists a b, s = a ++ m ++ b.

Section WF.
Variable U : unicode.
Variable cs : bool.          (* names are compared case-sensitively *)
Variable void : list str.

(** Names: a letter, digit, '_' or ':' followed by any number of those, '-' and
    '.' ([is_word]: the characters of the regular expression class \w). *)
Definition name_start (c : N) : Prop := c = 95%N \/ c = 58%N \/ is_word U c = true.
Definition name_rest (c : N) : Prop := name_start c \/ c = 45%N \/ c = 46%N.
Definition good_name (n : str) : Prop :=
  exists c r, scalar c = true /\ name_start c /\ made_of name_rest r /\ n = encode1 c ++ r.
(** Attribute names: no white space, control character, quote or any of '<' '>'
    '/' '='. *)
Definition attr_name_char (c : N) : Prop :=
  is_uspace c = false /\ ~ In c (map N.of_nat [34; 39; 60; 62; 47; 61]) /\
  (15 < c)%N /\ ~ (127 <= c < 160)%N.
Definition bare_char (c : N) : Prop :=
  is_uspace c = false /\ ~ In c (map N.of_nat [34; 39; 96; 61; 60; 62]).
Definition good_value (v : hvalue) : Prop :=
  match v with
  | NoValue => True
  | Bare gap v => blank gap /\ v <> [] /\ made_of bare_char v
  | Quoted gap q v => blank gap /\ (q = 34%N \/ q = 39%N) /\ Utf8 v /\ ~ In q v
  end.
Definition good_attr (a : hattr) : Prop :=
  blank (ha_space a) /\ ha_space a <> [] /\
  ha_name a <> [] /\ made_of attr_name_char (ha_name a) /\ good_value (ha_value a).
Definition good_attrs (l : list hattr) : Prop :=
  Forall good_attr l /\ NoDup (map ha_name l).
Definition same (a b : str) : Prop := if cs then a = b else lower U a = lower U b.
Definition is_raw (n : str) : Prop := same n (bs "script") \/ same n (bs "style").

Definition good_text (s : str) : Prop := s <> [] /\ Utf8 s /\ ~ In 60%N s.
(** Text is not split into adjacent pieces. *)
Fixpoint no_split (l : list html) : Prop :=
  match l with
  | HText _ :: (HText _ :: _) => False
  | _ :: r => no_split r
  | [] => True
  end.

Inductive good : html -> Prop :=
| G_text s : good_text s -> good (HText s)
| G_comment s : Utf8 s -> ~ occurs (bs "-->") s -> good (HComment s)
| G_doctype word s : map ascii_lower word = bs "doctype" -> Utf8 s -> ~ In 62%N s ->
    good (HDoctype word s)
| G_element name attrs pad body close pad2 :
    good_name name -> ~ is_raw name -> ~ In name void -> good_attrs attrs -> blank pad ->
    Forall good body -> no_split body ->
    good_name close -> same close name -> blank pad2 ->
    good (HElement name attrs pad body close pad2)
| G_script attrs pad s pad2 :
    ~ In (bs "script") void -> good_attrs attrs -> blank pad ->
    Forall (fun a => ~ same (ha_name a) (bs "type")) attrs ->
    Utf8 s -> ~ occurs (bs "<!--") s -> ~ occurs (bs "-->") s -> ~ occurs (bs "<script") s ->
    ~ occurs (bs "</script") s -> blank pad2 ->
    good (HRaw (bs "script") attrs pad s pad2)
| G_style attrs pad s pad2 :
    ~ In (bs "style") void -> good_attrs attrs -> blank pad ->
    Utf8 s -> ~ occurs (bs "</style") s -> blank pad2 ->
    good (HRaw (bs "style") attrs pad s pad2)
| G_void name attrs pad :
    good_name name -> ~ is_raw name -> In name void -> good_attrs attrs -> blank pad ->
    good (HVoid name attrs pad)
| G_self name attrs pad :
    good_name name -> good_attrs attrs -> blank pad ->
    (* a bare value would swallow the '/' *)
    (pad = [] -> forall l a gap v, attrs = l ++ [a] -> ha_value a <> Bare gap v) ->
    good (HSelf name attrs pad).
Definition good_doc (l : list html) : Prop := Forall good l /\ no_split l.
End WF.
