(** * DataManager: /repo/src/html_data.rs and /repo/src/language_facts/data_{manager,provider}.rs *)
From Verif Require Import Base Stream Scanner Tree.

(** ** The data, html_data.rs:4-65 *)
(** IReference, 47-50 *)
Record reference := mkRef { ref_name : str; ref_url : str }.
(** lsp_types::MarkupKind and MarkupContent *)
Inductive markup_kind := PlainText | Markdown.
Record markup := mkMarkup { mk_kind : markup_kind; mk_value : str }.
(** Description, 54-57 *)
Inductive description := DString (s : str) | DMarkup (m : markup).
(** IValueData, 40-44 *)
Record value_data := mkValue {
  v_name : str; v_desc : option description; v_refs : option (list reference)
}.
(** IAttributeData, 24-31 *)
Record attr_data := mkAttr {
  a_name : str; a_desc : option description; a_set : option str;
  a_values : option (list value_data); a_refs : option (list reference)
}.
(** ITagData, 15-21 *)
Record tag_data := mkTag {
  t_name : str; t_desc : option description; t_attrs : list attr_data;
  t_refs : option (list reference); t_void : option bool
}.
(** HTMLDataV1, 5-12, and IValueSet, 34-37; [version] is never read. *)
Record html_data := mkData {
  hd_tags : option (list tag_data);
  hd_globals : option (list attr_data);
  hd_sets : option (list (str * list value_data))
}.

(** ** IHTMLDataProvider, data_provider.rs:24-36
    A provider is what its methods return. The context argument of
    provide_attributes (document, parsed document, offset) is the same for every
    call one request makes, so it is left out: the theorems quantify over the
    provider. *)
Record provider := mkProvider {
  pv_id : str;
  pv_applicable : str -> bool;
  pv_tags : list tag_data;
  pv_attributes : str -> list attr_data;
  pv_values : str -> str -> list value_data
}.

(** ** HTMLDataProvider, data_provider.rs:13-174 *)
Section Provider.
Variable U : unicode.
(** A HashMap filled by [insert] in order: the last entry of a key wins. *)
Fixpoint last_assoc {A} (k : str) (l : list (str * A)) : option A :=
  match l with
  | [] => None
  | (k', a) :: r =>
      match last_assoc k r with
      | Some a' => Some a'
      | None => if beq k k' then Some a else None
      end
  end.
Definition opt_list {A} (o : option (list A)) : list A := match o with Some l => l | None => [] end.
(** tag_map.get(tag) followed by indexing, 97-99 and 125-127; new, 45-51 *)
Definition find_tag (dt : html_data) (x : str) : option tag_data :=
  last_assoc x (map (fun td => (t_name td, td)) (opt_list (hd_tags dt))).
Definition fold_name (cs : bool) (x : str) : str := if cs then x else lower U x.
(** provide_attributes, 85-109 *)
Definition provide_attributes (dt : html_data) (cs : bool) (x : str) : list attr_data :=
  match find_tag dt (fold_name cs x) with Some td => t_attrs td | None => [] end
  ++ opt_list (hd_globals dt).
(** The values one attribute entry contributes, 134-146 = 156-168 *)
Definition attr_entry_values (dt : html_data) (a : attr_data) : list value_data :=
  opt_list (a_values a) ++
  match a_set a with
  | Some vs => match last_assoc vs (opt_list (hd_sets dt)) with Some l => l | None => [] end
  | None => []
  end.
(** provide_values, 111-173 *)
Definition provide_values (dt : html_data) (cs : bool) (x attr : str) : list value_data :=
  let attr' := fold_name cs attr in
  flat_map (attr_entry_values dt)
    (filter (fun a => beq (fold_name cs (a_name a)) attr')
       (match find_tag dt (fold_name cs x) with Some td => t_attrs td | None => [] end
        ++ opt_list (hd_globals dt))).
(** HTMLDataProvider::new with the IHTMLDataProvider methods, 44-174 *)
Definition html_provider (id : str) (dt : html_data) (cs : bool) : provider := {|
  pv_id := id;
  pv_applicable := fun _ => true;
  pv_tags := opt_list (hd_tags dt);
  pv_attributes := provide_attributes dt cs;
  pv_values := provide_values dt cs
|}.
End Provider.

(** ** generate_documentation, data_provider.rs:177-220 *)
(** normalize_markup_content, utils/markup.rs:5-16: the value, whatever the kind. *)
Definition description_text (x : description) : str :=
  match x with DString s => s | DMarkup m => mk_value m end.
(** [Vec<String>::join] *)
Fixpoint join (sep : str) (l : list str) : str :=
  match l with [] => [] | [x] => x | x :: r => x ++ sep ++ join sep r end.
Definition ref_markdown (r : reference) : str :=
  bs "[" ++ ref_name r ++ bs "](" ++ ref_url r ++ bs ")".
Definition ref_plain (r : reference) : str := ref_name r ++ bs ": " ++ ref_url r.
Definition generate_documentation (desc : option description) (refs : option (list reference))
           (want_doc want_refs md : bool) : option markup :=
  let v1 := match desc with Some x => if want_doc then description_text x else [] | None => [] end in
  let v2 :=
    match refs with
    | Some ((_ :: _) as rs) =>
        if want_refs then
          (match v1 with [] => [] | _ => [10%N; 10%N] end) ++
          (if md then join (bs " | ") (map ref_markdown rs) else join [10%N] (map ref_plain rs))
        else []
    | _ => []
    end in
  match v1 ++ v2 with
  | [] => None
  | v => Some (mkMarkup (if md then Markdown else PlainText) v)
  end.

(** ** HTMLDataManager, data_manager.rs:14-99 *)
(** set_data_providers, 37-51: [old] is the list before the call, [built_in] the
    provider made of the built-in data, HTMLDataProvider::new("html5", HTML_DATA_INSTANCE,
    self.case_sensitive). *)
Definition set_data_providers (built_in : provider) (old : list provider) (use_built_in : bool)
           (customs : list provider) : list provider :=
  let ps := [] in                                            (* clear *)
  let ps := if use_built_in then ps ++ [built_in] else ps in (* push *)
  ps ++ customs.                                             (* append *)
(** new, 20-34 *)
Definition manager_new (built_in : provider) (use_default : bool) (customs : option (list provider))
  : list provider := set_data_providers built_in [] use_default (opt_list customs).

(** The order of [String]s: bytewise lexicographic. *)
Fixpoint str_leb (a b : str) : bool :=
  match a, b with
  | [], _ => true
  | _ :: _, [] => false
  | x :: a', y :: b' => (x <? y)%N || ((x =? y)%N && str_leb a' b')
  end.
Fixpoint str_insert (x : str) (l : list str) : list str :=
  match l with [] => [x] | y :: r => if str_leb x y then x :: l else y :: str_insert x r end.
Definition str_sort (l : list str) : list str := fold_right str_insert [] l.
Definition is_void_tag (td : tag_data) : bool := match t_void td with Some b => b | None => false end.
(** get_void_elements, 65-78 *)
Definition get_void_elements (ps : list provider) (lang : str) : list str :=
  str_sort (flat_map (fun p => map t_name (filter is_void_tag (pv_tags p)))
                     (filter (fun p => pv_applicable p lang) ps)).

(** PATH_TAG_AND_ATTR, 117-143 *)
Definition path_table : list (str * list str) := [
  (bs "a", [bs "href"]); (bs "area", [bs "href"]); (bs "body", [bs "background"]);
  (bs "blockquote", [bs "cite"]); (bs "del", [bs "cite"]); (bs "form", [bs "action"]);
  (bs "frame", [bs "src"; bs "longdesc"]); (bs "img", [bs "src"; bs "longdesc"]);
  (bs "ins", [bs "cite"]); (bs "link", [bs "href"]); (bs "object", [bs "data"]);
  (bs "q", [bs "cite"]); (bs "script", [bs "src"]);
  (bs "audio", [bs "src"]); (bs "button", [bs "formaction"]); (bs "command", [bs "icon"]);
  (bs "embed", [bs "src"]); (bs "html", [bs "manifest"]); (bs "input", [bs "src"; bs "formaction"]);
  (bs "source", [bs "src"]); (bs "track", [bs "src"]); (bs "video", [bs "src"; bs "poster"])].
Fixpoint assoc {A} (k : str) (l : list (str * A)) : option A :=
  match l with [] => None | (k', a) :: r => if beq k k' then Some a else assoc k r end.
Definition mem (x : str) (l : list str) : bool := existsb (beq x) l.
(** is_path_attribute, 81-98 *)
Definition is_path_attribute (x attr : str) : bool :=
  mem attr [bs "src"; bs "href"] ||
  match assoc x path_table with Some l => mem attr l | None => false end.
