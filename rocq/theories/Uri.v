(** * Uri: the URI type and the paths that links are resolved with, and
    DefaultDocumentContext::resolve_reference (/repo/src/html_language_types.rs:52-161) *)
From Verif Require Import Base Stream Scanner Tree DataManager.

(** ** lsp_types::Uri (not in /repo)
    A [Uri] is a string that [Uri::from_str] accepts; [as_str]/[to_string] give
    that string back. The accessors are those of a URI reference, RFC 3986. The
    services are modelled over any parser [uri_lib]; [uri_ok] is what the theorems
    need of it and [rfc_uri] an executable instance. *)
Record uri_parts := mkUri {
  u_scheme : option str; u_auth : option str; u_path : str;
  u_query : option str; u_frag : option str
}.
Definition uri_lib := str -> option uri_parts.

Definition opt_pre (p : str) (o : option str) : str := match o with Some x => p ++ x | None => [] end.
Definition opt_post (o : option str) (p : str) : str := match o with Some x => x ++ p | None => [] end.
(** RFC 3986, section 5.3 *)
Definition recompose (u : uri_parts) : str :=
  opt_post (u_scheme u) (bs ":") ++ opt_pre (bs "//") (u_auth u) ++ u_path u ++
  opt_pre (bs "?") (u_query u) ++ opt_pre (bs "#") (u_frag u).
Definition has (c : N) (s : str) : Prop := In c s.
(** The contract: the parts make up the string; a part does not contain what
    would end it. *)
Record uri_ok (L : uri_lib) : Prop := {
  uo_parts : forall s u, L s = Some u -> recompose u = s;
  uo_auth : forall s u a, L s = Some u -> u_auth u = Some a -> ~ has 47 a /\ ~ has 63 a /\ ~ has 35 a;
  uo_path : forall s u, L s = Some u -> ~ has 63 (u_path u) /\ ~ has 35 (u_path u);
  uo_abs : forall s u a, L s = Some u -> u_auth u = Some a ->
           u_path u = [] \/ exists p, u_path u = 47%N :: p;
  uo_scheme : forall s u x, L s = Some u -> u_scheme u = Some x ->
           ~ has 58 x /\ ~ has 47 x /\ ~ has 63 x /\ ~ has 35 x /\ x <> [];
  uo_query : forall s u q, L s = Some u -> u_query u = Some q -> ~ has 35 q;
  (* no authority: the path does not look like one; no scheme: nor like a scheme *)
  uo_noauth : forall s u, L s = Some u -> u_auth u = None -> is_prefix (bs "//") (u_path u) = false;
  uo_noscheme : forall s u a b, L s = Some u -> u_scheme u = None -> u_auth u = None ->
           u_path u = a ++ 58%N :: b -> has 47 a
}.

(** ** An instance: the grammar of RFC 3986 *)
(** Split at the first byte satisfying [f]; it stays with the rest. *)
Fixpoint break (f : N -> bool) (s : str) : str * str :=
  match s with
  | [] => ([], [])
  | c :: r => if f c then ([], s) else let '(a, b) := break f r in (c :: a, b)
  end.
Definition is_unreserved (c : N) : bool :=
  ascii_alnum c || (c =? 45)%N || (c =? 46)%N || (c =? 95)%N || (c =? 126)%N.
Definition is_sub_delim (c : N) : bool :=
  existsb (N.eqb c) [33; 36; 38; 39; 40; 41; 42; 43; 44; 59; 61]%N.
Definition is_hex (c : N) : bool :=
  ((48 <=? c) && (c <=? 57) || (65 <=? c) && (c <=? 70) || (97 <=? c) && (c <=? 102))%N.
(** Only characters of [f] and percent-encoded bytes. *)
Fixpoint pct_all (f : N -> bool) (s : str) : bool :=
  match s with
  | [] => true
  | c :: r =>
      if (c =? 37)%N then
        match r with h1 :: h2 :: r' => is_hex h1 && is_hex h2 && pct_all f r' | _ => false end
      else f c && pct_all f r
  end.
Definition is_pchar (c : N) : bool := is_unreserved c || is_sub_delim c || (c =? 58)%N || (c =? 64)%N.
Definition is_scheme_char (c : N) : bool :=
  ascii_alnum c || (c =? 43)%N || (c =? 45)%N || (c =? 46)%N.
Definition scheme_ok (s : str) : bool :=
  match s with c :: r => ascii_alpha c && forallb is_scheme_char r | [] => false end.
Definition digits (s : str) : bool := forallb (fun c => (48 <=? c) && (c <=? 57))%N s.
(** host, colon, port; an IP literal is accepted by its brackets and characters *)
Definition port_ok (s : str) : bool :=
  match s with [] => true | c :: port => (c =? 58)%N && digits port end.
Definition host_port_ok (s : str) : bool :=
  match s with
  | c :: r =>
      if (c =? 91)%N then
        let '(lit, rest) := break (N.eqb 93) r in
        (0 <? length lit) && forallb (fun c => is_unreserved c || is_sub_delim c || (c =? 58)%N) lit &&
        match rest with _ :: p => port_ok p | [] => false end
      else
        let '(h, rest) := break (N.eqb 58) s in
        pct_all (fun c => is_unreserved c || is_sub_delim c) h && port_ok rest
  | [] => true
  end.
(** [ userinfo "@" ] host [ ":" port ] *)
Definition auth_ok (s : str) : bool :=
  let '(a, b) := break (N.eqb 64) s in
  match b with
  | [] => host_port_ok a
  | _ :: h => pct_all (fun c => is_unreserved c || is_sub_delim c || (c =? 58)%N) a && host_port_ok h
  end.
Definition opt_ok (f : str -> bool) (o : option str) : bool := match o with Some s => f s | None => true end.

Definition split_scheme (s : str) : option str * str :=
  match break (fun c => existsb (N.eqb c) [58; 47; 63; 35]%N) s with
  | (a, c :: r) => if (c =? 58)%N && scheme_ok a then (Some a, r) else (None, s)
  | _ => (None, s)
  end.
Definition split_auth (s : str) : option str * str :=
  match s with
  | c1 :: c2 :: r =>
      if (c1 =? 47)%N && (c2 =? 47)%N then
        let '(a, b) := break (fun c => existsb (N.eqb c) [47; 63; 35]%N) r in (Some a, b)
      else (None, s)
  | _ => (None, s)
  end.
(** What follows the separator [c], if the string starts with it, up to [f]. *)
Definition split_after (c : N) (f : N -> bool) (s : str) : option str * str :=
  match s with
  | c' :: r => if (c' =? c)%N then let '(a, b) := break f r in (Some a, b) else (None, s)
  | [] => (None, [])
  end.
Definition rfc_split (s : str) : uri_parts * str :=
  let '(sch, s1) := split_scheme s in
  let '(au, s2) := split_auth s1 in
  let '(p, s3) := break (fun c => (c =? 63)%N || (c =? 35)%N) s2 in
  let '(q, s4) := split_after 63 (fun c => (c =? 35)%N) s3 in
  let '(f, s5) := split_after 35 (fun _ => false) s4 in
  (mkUri sch au p q f, s5).
Definition qf_ok : str -> bool := pct_all (fun c => is_pchar c || (c =? 47)%N || (c =? 63)%N).
Definition rfc_valid (u : uri_parts) : bool :=
  pct_all (fun c => is_pchar c || (c =? 47)%N) (u_path u) &&
  opt_ok auth_ok (u_auth u) && opt_ok qf_ok (u_query u) && opt_ok qf_ok (u_frag u) &&
  match u_scheme u, u_auth u with
  | None, None => negb (existsb (N.eqb 58) (fst (break (N.eqb 47) (u_path u))))
  | _, _ => true
  end.
Definition rfc_uri : uri_lib := fun s =>
  let '(u, _) := rfc_split s in if rfc_valid u then Some u else None.

(** ** std::path on Unix (not in /repo) *)
(** Component; on Unix there is no Prefix. *)
Inductive component := RootDir | CurDir | ParentDir | Normal (s : str).
Definition SLASH : N := 47%N.
(** The parts between slashes. *)
Fixpoint split_on (c : N) (s : str) : list str :=
  match s with
  | [] => [[]]
  | x :: r =>
      match split_on c r with
      | [] => [[]]
      | p :: ps => if (x =? c)%N then [] :: p :: ps else (x :: p) :: ps
      end
  end.
Definition part_component (p : str) : list component :=
  match p with
  | [] => []
  | _ => if beq p (bs ".") then [] else if beq p (bs "..") then [ParentDir] else [Normal p]
  end.
Definition has_root (s : str) : bool := match s with c :: _ => (c =? SLASH)%N | [] => false end.
(** Path::components *)
Definition path_components (s : str) : list component :=
  let ps := split_on SLASH s in
  if has_root s then RootDir :: flat_map part_component ps
  else match ps with
       | p :: r => (if beq p (bs ".") then [CurDir] else part_component p) ++ flat_map part_component r
       | [] => []
       end.
(** The components of [PathBuf::pop]'s result: the last one goes, unless it is
    the root. Modelled on the components only: the popped path is used through
    [join] with a relative path and [components], which see no more of it. *)
Fixpoint pop_component (l : list component) : list component :=
  match l with
  | [] => []
  | [RootDir] => [RootDir]
  | [_] => []
  | c :: r => c :: pop_component r
  end.
(** The components of [base.join(p)]: [p] itself if it has a root, else those of
    base/p: a leading "." of [p] disappears, unless base is empty. *)
Definition join_components (base : list component) (p : str) : list component :=
  if has_root p then path_components p
  else match base with
       | [] => path_components p
       | _ => base ++ filter (fun c => match c with CurDir => false | _ => true end) (path_components p)
       end.
(** Collecting components into a PathBuf: pushing the root replaces the path, a
    separator is put between a non-empty path that does not end with one and the
    next component. *)
Definition push_component (acc : str) (c : component) : str :=
  let sep s := match rev acc with [] => s | x :: _ => if (x =? SLASH)%N then acc ++ s else acc ++ SLASH :: s end in
  match c with
  | RootDir => [SLASH]
  | CurDir => sep (bs ".")
  | ParentDir => sep (bs "..")
  | Normal s => sep s
  end.
Definition collect_path (l : list component) : str := fold_left push_component l [].

(** ** resolve_reference, html_language_types.rs:59-160 *)
Definition ends_with (s : str) (c : N) : bool := match rev s with x :: _ => (x =? c)%N | [] => false end.
Definition has_colon (s : str) : bool := existsb (N.eqb 58) s.
(** base_prefix, 89-105; Prefix does not occur on Unix. *)
Definition base_prefix (base : list component) : option str :=
  match base with
  | RootDir :: Normal v :: _ => if has_colon v then Some v else None
  | _ => None
  end.
Definition prefix_root (o : option str) : list component :=
  match o with Some v => [RootDir; Normal v] | None => [RootDir] end.
(** The loop 142-152 over the other components: [acc] is new_path, last first. *)
Fixpoint walk (acc : list component) (l : list component) : list component :=
  match l with
  | [] => acc
  | RootDir :: r => walk (RootDir :: acc) r
  | CurDir :: r => walk acc r
  | ParentDir :: r => walk (tl acc) r
  | Normal v :: r => walk (Normal v :: acc) r
  end.
(** 86-154: from base_uri_path and path to new_path *)
Definition new_path (base path : list component) : list component :=
  match path with
  | [] => []
  | c :: rest =>
      let first :=
        match c with
        | RootDir =>
            let add_prefix := match rest with Normal v :: _ => negb (has_colon v) | _ => true end in
            if add_prefix then prefix_root (base_prefix base) else [RootDir]
        | Normal v => prefix_root (base_prefix base) ++ [Normal v]
        | _ => []
        end in
      rev (walk (rev first) rest)
  end.
Definition resolve_reference (L : uri_lib) (reference base : str) : res (option str) :=
  match L reference with
  | None => Ok None
  | Some u =>
      match L base with
      | None => Panic PUnwrap
      | Some b =>
          match u_scheme u with
          | Some _ => Ok (Some reference)
          | None =>
              match u_scheme b with
              | None => Panic PUnwrap
              | Some sch =>
                  let auth := match u_auth u with
                              | Some a => a
                              | None => match u_auth b with Some a => a | None => [] end
                              end in
                  let bp0 := path_components (u_path b) in
                  let bp := if ends_with base SLASH then bp0 else pop_component bp0 in
                  let path := join_components bp (u_path u) in
                  let suffix := if ends_with reference SLASH || ends_with reference 46 then [SLASH] else [] in
                  Ok (Some (sch ++ bs "://" ++ auth ++ collect_path (new_path bp path) ++ suffix))
              end
          end
      end
  end.
