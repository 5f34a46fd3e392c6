(** * Links: /repo/src/services/html_links.rs *)
From Verif Require Import Base Stream Scanner Tree TextDoc DataManager Uri.
From Coq Require Import DecimalString.

(** ** Regular expressions, 14-20 *)
(** REG_REF.is_match. The pattern starts at a word boundary, the part in front of
    [://] is optional, the tail may be empty, so a match needs a boundary followed by
    one character that is neither white space nor one of [()<>]. A text with a word
    character has a boundary in front of its first one, and word characters are
    neither; a text without word characters has no boundary. *)
Definition reg_ref (U : unicode) (s : str) : bool := existsb (is_word U) (decode s).
(** A case-insensitive match of one ASCII letter, Unicode simple folding: [s] also
    matches U+017F. *)
Definition letter_ci (l c : N) : bool := (ascii_lower c =? l)%N || ((l =? 115) && (c =? 383))%N.
Fixpoint prefix_ci (p : str) (s : list N) : bool :=
  match p, s with
  | [], _ => true
  | l :: p', c :: s' => letter_ci l c && prefix_ci p' s'
  | _ :: _, [] => false
  end.
Definition has_break (s : str) : bool := existsb (fun c => (c =? 10) || (c =? 13))%N s.
(** REG_JAVASCRIPT.is_match *)
Definition reg_javascript (s : str) : bool :=
  prefix_ci (bs "javascript:") (decode (skipn (char_run is_uspace s) s)) || has_break s.
(** str::trim_start *)
Definition trim_start (s : str) : str := skipn (char_run is_uspace s) s.
Definition is_schema_char (U : unicode) (c : N) : bool :=
  is_word U c || (c =? 43)%N || (c =? 46)%N || (c =? 45)%N.
(** REG_SCHEMA.captures: group 1 *)
Definition reg_schema (U : unicode) (s : str) : option str :=
  match decode1 s with
  | Some (c, _) =>
      if is_word U c then
        let n := char_run (is_schema_char U) s in
        match nth_error s n with
        | Some x => if (x =? 58)%N then Some (firstn n s) else None
        | None => None
        end
      else None
  | None => None
  end.

(** ** normalize_ref, 165-174 *)
Definition is_quote (c : N) : bool := ((c =? 34) || (c =? 39))%N.
Definition normalize_ref (s : str) : res str :=
  match s, rev s with
  | a :: r, b :: _ =>
      if (a =? b)%N && is_quote a then
        match r with
        | [] => Panic PSlice           (* [&url[1..0]] *)
        | _ => Ok (removelast r)
        end
      else Ok s
  | _, _ => Ok s
  end.
(** validate_ref, 176-181 *)
Definition validate_ref (U : unicode) (s : str) : bool :=
  match s with [] => false | _ => reg_ref U s end.

(** [format!("{}", n)] *)
Definition show_nat (n : nat) : str := bs (NilZero.string_of_uint (Nat.to_uint n)).

(** lsp_types::DocumentLink: the fields that are set. *)
Record link := mkLink { lk_range : range; lk_target : option str }.

Section Links.
Variables (U : unicode) (L : uri_lib).
(** The DocumentContext, a trait: any resolver. *)
Variable resolve : str -> str -> res (option str).
Variables (uri : str) (d : textdoc) (cs : bool).
Let t := d_text d.

(** create_uri_from_str, utils/uri.rs:5-12 *)
Definition create_uri (s : str) : option str :=
  let s' := map (fun c => if (c =? 92)%N then 47%N else c) s in
  match L s' with Some _ => Some s' | None => None end.

(** get_workspace_url, 183-228 *)
Definition get_workspace_url (tc : str) (base : option str) : res (option str) :=
  if reg_javascript tc then Ok None
  else
    let tc := trim_start tc in
    match reg_schema U tc with
    | Some x =>
        let x := lower U x in
        if beq x (bs "http") || beq x (bs "https") || beq x (bs "file") then Ok (Some tc) else Ok None
    | None =>
        if is_prefix (bs "#") tc then Ok (Some (uri ++ tc))
        else if is_prefix (bs "//") tc then
          Ok (Some ((if is_prefix (bs "https://") uri then bs "https" else bs "http") ++
                    bs ":" ++ trim_start tc))
        else resolve tc (match base with Some b => b | None => uri end)
    end.

(** The part of a string in front of its last [c]. *)
Fixpoint before_last (c : N) (s : str) : option str :=
  match s with
  | [] => None
  | x :: r =>
      match before_last c r with
      | Some p => Some (x :: p)
      | None => if (x =? c)%N then Some [] else None
      end
  end.
Definition unwrap {A} (o : option A) : res A := match o with Some a => Ok a | None => Panic PUnwrap end.
Definition is_file (u : uri_parts) : bool :=
  match u_scheme u with Some x => beq x (bs "file") | None => false end.
Definition is_some {A} (o : option A) : bool := match o with Some _ => true | None => false end.
(** validate_and_clean_uri, 230-253 *)
Definition validate_and_clean_uri (s : str) : res (option str) :=
  match create_uri s with
  | None => Ok None
  | Some s0 =>
      do p0 <- unwrap (L s0);
      do s1 <- (if is_file p0 && is_some (u_query p0)
                then do pre <- unwrap (before_last 63 s0); unwrap (create_uri pre)
                else Ok s0);
      do p1 <- unwrap (L s1);
      if is_file p1 && is_some (u_frag p1) &&
         negb (is_prefix uri s1 && match nth_error s1 (length uri) with
                                   | Some c => (c =? 35)%N | None => false end)
      then
        let s2 := bs "file://" ++ match u_auth p1 with Some a => a | None => [] end ++ u_path p1 in
        do _ <- unwrap (L s2); Ok (Some s2)
      else do s2 <- unwrap (create_uri s1); Ok (Some s2)
  end.

(** create_link, 134-163 *)
Definition create_link (value : str) (so eo : nat) (base : option str) : res (option link) :=
  do tc <- normalize_ref value;
  if negb (validate_ref U tc) then Ok None
  else
    do ' (so', eo') <- (if length tc <? length value
                        then do e <- usub eo 1; Ok (so + 1, e) else Ok (so, eo));
    do w <- get_workspace_url tc base;
    match w with
    | None => Ok None
    | Some w => do tg <- validate_and_clean_uri w; Ok (Some (mkLink (range_at d so' eo') tg))
    end.

(** The local variables of find_document_links, 29-43. id_locations: newest first. *)
Record lstate := mkLS {
  l_links : list link;
  l_attr : option str;
  l_tag : option str;
  l_in_base : bool;
  l_base : option str;
  l_ids : list (str * nat)
}.
Definition lstate0 : lstate := mkLS [] None None false None [].

(** One iteration of the loop 44-105, on the scanner that returned the token. *)
Definition link_step (sc : scanner) (s : lstate) : res lstate :=
  match tok sc with
  | StartTag =>
      do x <- token_text t sc;
      let x := fold_name U cs x in
      Ok (mkLS (l_links s) (l_attr s) (Some x) (l_in_base s || beq x (bs "base")) (l_base s) (l_ids s))
  | AttributeName =>
      do x <- token_text t sc;
      Ok (mkLS (l_links s) (Some (fold_name U cs x)) (l_tag s) (l_in_base s) (l_base s) (l_ids s))
  | AttributeValue =>
      match l_tag s, l_attr s with
      | Some tag, Some attr =>
          if is_path_attribute tag attr then
            do v <- token_text t sc;
            if l_in_base s then
              do b <- (match l_base s with
                       | Some b => Ok (Some b)
                       | None =>
                           do b <- normalize_ref v;
                           match b with
                           | [] => Ok (Some [])
                           | _ => do r <- resolve b uri;
                                  Ok (Some match r with Some x => x | None => b end)
                           end
                       end);
              Ok (mkLS (l_links s) None (l_tag s) false b (l_ids s))
            else
              do lk <- create_link v (tok_off sc) (pos sc) (l_base s);
              Ok (mkLS (l_links s ++ match lk with Some k => [k] | None => [] end)
                       None (l_tag s) false (l_base s) (l_ids s))
          else if beq attr (bs "id") then
            do v <- token_text t sc;
            do id <- normalize_ref v;
            Ok (mkLS (l_links s) (l_attr s) (l_tag s) (l_in_base s) (l_base s) ((id, tok_off sc) :: l_ids s))
          else Ok s
      | _, _ => Ok s
      end
  | _ => Ok s
  end.

Fixpoint link_loop (fuel : nat) (sc : scanner) (s : lstate) : res lstate :=
  match fuel with
  | 0 => OutOfFuel
  | S fuel' =>
      do sc' <- scan U t false cs sc;
      if token_eqb (tok sc') EOS then Ok s
      else do s' <- link_step sc' s; link_loop fuel' sc' s'
  end.

(** The loop 107-129: local targets. *)
Definition local_target (ids : list (str * nat)) (k : link) : res link :=
  match lk_target k with
  | Some tg =>
      let h := uri ++ bs "#" in
      if is_prefix h tg then
        match assoc (skipn (length h) tg) ids with
        | Some o =>
            let p := position_at d o in
            do s <- unwrap (create_uri (h ++ show_nat (line p + 1) ++ bs "," ++ show_nat (character p + 1)));
            Ok (mkLink (lk_range k) (Some s))
        | None => Ok (mkLink (lk_range k) (Some uri))
        end
      else Ok k
  | None => Ok k
  end.
Fixpoint local_targets (ids : list (str * nat)) (l : list link) : res (list link) :=
  match l with
  | [] => Ok []
  | k :: r => do k' <- local_target ids k; do r' <- local_targets ids r; Ok (k' :: r')
  end.

(** find_document_links, 22-132 *)
Definition find_document_links : res (list link) :=
  do s <- link_loop (scan_fuel t) (scanner_new 0 WithinContent) lstate0;
  local_targets (l_ids s) (l_links s).
End Links.
