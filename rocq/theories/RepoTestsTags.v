(** Tests of /repo/tests/highlight.rs, linked_editing.rs, matching_tag_position.rs, rename.rs and
    symbols.rs transcribed (generated by tools/gen_tag_tests.py). They validate the model's
    fidelity; they are tests, not proofs. *)
From Verif Require Import Base Stream Scanner Tree Parser TextDoc TagServices.

(** The cursor is at offset [o]; the answers as offsets. *)
Definition on_doc {A} (s : str) (f : textdoc -> list node -> res A) : res A :=
  do roots <- parse demo_unicode s false html5_void; f (utf16_doc s) roots.
Definition offsets (d : textdoc) (r : range) : nat * nat := (offset_at d (r_start r), offset_at d (r_end r)).
Definition highlights (s : str) (o : nat) : res (list (nat * nat)) :=
  on_doc s (fun d roots => do l <- find_document_highlights demo_unicode d (position_at d o) roots false; Ok (map (offsets d) l)).
Definition linked (s : str) (o : nat) : res (list (nat * str)) :=
  on_doc s (fun d roots => do l <- find_linked_editing_ranges d (position_at d o) roots;
    Ok (match l with
        | Some l => map (fun r => let (a, b) := offsets d r in (a, sub s a b)) l
        | None => []
        end)).
Definition matching (s : str) (o : nat) : res (option nat) :=
  on_doc s (fun d roots => do p <- find_matching_tag_position d (position_at d o) roots;
    Ok (match p with Some p => Some (offset_at d p) | None => None end)).
(** apply_edits of rename.rs *)
Fixpoint apply_edits (d : textdoc) (prev : nat) (l : list (range * str)) : str :=
  match l with
  | [] => skipn prev (d_text d)
  | (r, x) :: l => let (a, b) := offsets d r in sub (d_text d) prev a ++ x ++ apply_edits d b l
  end.
Definition rename (s new : str) (o : nat) : res (option str) :=
  on_doc s (fun d roots => do e <- do_rename d (position_at d o) new roots;
    Ok (match e with Some e => Some (apply_edits d 0 e) | None => None end)).
Definition place (p : position) : nat * nat := (line p, character p).
Inductive sym := mkSym (name : str) (a b : nat * nat) (children : list sym).
Fixpoint to_sym (s : symbol) : sym :=
  match s with mkSymbol n r _ ch => mkSym n (place (r_start r)) (place (r_end r)) (map to_sym ch) end.
Definition symbols (s : str) : res (list sym) := on_doc s (fun d roots => Ok (map to_sym (find_document_symbols2 d roots))).
Definition infos (s : str) : res (list (str * (nat * nat) * (nat * nat) * option str)) :=
  on_doc s (fun d roots => Ok (map (fun i => (i_name i, place (r_start (i_range i)), place (r_end (i_range i)), i_container i)) (find_document_symbols d roots))).

Example highlight_0 : highlights (bs "<html></html>") 0 = Ok [].
Proof. vm_compute. reflexivity. Qed.

Example highlight_1 : highlights (bs "<html></html>") 1 = Ok [(1, 5); (8, 12)].
Proof. vm_compute. reflexivity. Qed.

Example highlight_2 : highlights (bs "<html></html>") 2 = Ok [(1, 5); (8, 12)].
Proof. vm_compute. reflexivity. Qed.

Example highlight_3 : highlights (bs "<html></html>") 4 = Ok [(1, 5); (8, 12)].
Proof. vm_compute. reflexivity. Qed.

Example highlight_4 : highlights (bs "<html></html>") 5 = Ok [(1, 5); (8, 12)].
Proof. vm_compute. reflexivity. Qed.

Example highlight_5 : highlights (bs "<html></html>") 6 = Ok [].
Proof. vm_compute. reflexivity. Qed.

Example highlight_6 : highlights (bs "<html></html>") 7 = Ok [].
Proof. vm_compute. reflexivity. Qed.

Example highlight_7 : highlights (bs "<html></html>") 8 = Ok [(1, 5); (8, 12)].
Proof. vm_compute. reflexivity. Qed.

Example highlight_8 : highlights (bs "<html></html>") 9 = Ok [(1, 5); (8, 12)].
Proof. vm_compute. reflexivity. Qed.

Example highlight_9 : highlights (bs "<html></html>") 10 = Ok [(1, 5); (8, 12)].
Proof. vm_compute. reflexivity. Qed.

Example highlight_10 : highlights (bs "<html></html>") 11 = Ok [(1, 5); (8, 12)].
Proof. vm_compute. reflexivity. Qed.

Example highlight_11 : highlights (bs "<html></html>") 12 = Ok [(1, 5); (8, 12)].
Proof. vm_compute. reflexivity. Qed.

Example highlight_12 : highlights (bs "<html></html>") 13 = Ok [].
Proof. vm_compute. reflexivity. Qed.

Example highlight_13 : highlights (bs "<html><div></div></html>") 6 = Ok [].
Proof. vm_compute. reflexivity. Qed.

Example highlight_14 : highlights (bs "<html><div></div></html>") 7 = Ok [(7, 10); (13, 16)].
Proof. vm_compute. reflexivity. Qed.

Example highlight_15 : highlights (bs "<html><div></div></html>") 11 = Ok [].
Proof. vm_compute. reflexivity. Qed.

Example highlight_16 : highlights (bs "<html><div></div></html>") 15 = Ok [(7, 10); (13, 16)].
Proof. vm_compute. reflexivity. Qed.

Example highlight_17 : highlights (bs "<html><div><div></div></div></html>") 26 = Ok [(7, 10); (24, 27)].
Proof. vm_compute. reflexivity. Qed.

Example highlight_18 : highlights (bs "<html><div><div></div></div></html>") 21 = Ok [(12, 15); (18, 21)].
Proof. vm_compute. reflexivity. Qed.

Example highlight_19 : highlights (bs "<html><div><div></div></div></html>") 15 = Ok [(12, 15); (18, 21)].
Proof. vm_compute. reflexivity. Qed.

Example highlight_20 : highlights (bs "<html><div><div></div></div></html>") 31 = Ok [(1, 5); (30, 34)].
Proof. vm_compute. reflexivity. Qed.

Example highlight_21 : highlights (bs "<html><div></div><div></div></html>") 9 = Ok [(7, 10); (13, 16)].
Proof. vm_compute. reflexivity. Qed.

Example highlight_22 : highlights (bs "<html><div></div><div></div></html>") 25 = Ok [(18, 21); (24, 27)].
Proof. vm_compute. reflexivity. Qed.

Example highlight_23 : highlights (bs "<html><div/></html>") 7 = Ok [(7, 10)].
Proof. vm_compute. reflexivity. Qed.

Example highlight_24 : highlights (bs "<html><br></html>") 7 = Ok [(7, 9)].
Proof. vm_compute. reflexivity. Qed.

Example highlight_25 : highlights (bs "<html><div><div/></div></html>") 13 = Ok [(12, 15)].
Proof. vm_compute. reflexivity. Qed.

Example highlight_26 : highlights (bs "<HTML><diV><Div></dIV></dIv></html>") 26 = Ok [(7, 10); (24, 27)].
Proof. vm_compute. reflexivity. Qed.

Example highlight_27 : highlights (bs "<HTML><diV><Div></dIV></dIv></html>") 10 = Ok [(7, 10); (24, 27)].
Proof. vm_compute. reflexivity. Qed.

Example highlight_28 : highlights (bs "<div><ol><li></li></ol></p></div>") 29 = Ok [(1, 4); (29, 32)].
Proof. vm_compute. reflexivity. Qed.

Example linked_0 : linked (bs "<div></div>") 0 = Ok [].
Proof. vm_compute. reflexivity. Qed.

Example linked_1 : linked (bs "<div></div>") 1 = Ok [(1, bs "div"); (7, bs "div")].
Proof. vm_compute. reflexivity. Qed.

Example linked_2 : linked (bs "<div></div>") 2 = Ok [(1, bs "div"); (7, bs "div")].
Proof. vm_compute. reflexivity. Qed.

Example linked_3 : linked (bs "<div></div>") 3 = Ok [(1, bs "div"); (7, bs "div")].
Proof. vm_compute. reflexivity. Qed.

Example linked_4 : linked (bs "<div></div>") 4 = Ok [(1, bs "div"); (7, bs "div")].
Proof. vm_compute. reflexivity. Qed.

Example linked_5 : linked (bs "<div></div>") 5 = Ok [].
Proof. vm_compute. reflexivity. Qed.

Example linked_6 : linked (bs "<div></div>") 6 = Ok [].
Proof. vm_compute. reflexivity. Qed.

Example linked_7 : linked (bs "<div></div>") 7 = Ok [(1, bs "div"); (7, bs "div")].
Proof. vm_compute. reflexivity. Qed.

Example linked_8 : linked (bs "<div></div>") 8 = Ok [(1, bs "div"); (7, bs "div")].
Proof. vm_compute. reflexivity. Qed.

Example linked_9 : linked (bs "<div></div>") 9 = Ok [(1, bs "div"); (7, bs "div")].
Proof. vm_compute. reflexivity. Qed.

Example linked_10 : linked (bs "<div></div>") 10 = Ok [(1, bs "div"); (7, bs "div")].
Proof. vm_compute. reflexivity. Qed.

Example linked_11 : linked (bs "<div></div>") 11 = Ok [].
Proof. vm_compute. reflexivity. Qed.

Example linked_12 : linked (bs "<div><div</div>") 9 = Ok [].
Proof. vm_compute. reflexivity. Qed.

Example linked_13 : linked (bs "<div><div><div</div></div>") 14 = Ok [].
Proof. vm_compute. reflexivity. Qed.

Example linked_14 : linked (bs "<div ></div>") 4 = Ok [(1, bs "div"); (8, bs "div")].
Proof. vm_compute. reflexivity. Qed.

Example linked_15 : linked (bs "<div id=""foo""></div>") 4 = Ok [(1, bs "div"); (16, bs "div")].
Proof. vm_compute. reflexivity. Qed.

Example linked_16 : linked (bs "<></>") 1 = Ok [(1, bs ""); (4, bs "")].
Proof. vm_compute. reflexivity. Qed.

Example linked_17 : linked (bs "<><div></div></>") 15 = Ok [(1, bs ""); (15, bs "")].
Proof. vm_compute. reflexivity. Qed.

Example matching_0 : matching (bs "<div></div>") 1 = Ok (Some 7).
Proof. vm_compute. reflexivity. Qed.

Example matching_1 : matching (bs "<div></div>") 2 = Ok (Some 8).
Proof. vm_compute. reflexivity. Qed.

Example matching_2 : matching (bs "<div></div>") 3 = Ok (Some 9).
Proof. vm_compute. reflexivity. Qed.

Example matching_3 : matching (bs "<div></div>") 4 = Ok (Some 10).
Proof. vm_compute. reflexivity. Qed.

Example matching_4 : matching (bs "<div></div>") 7 = Ok (Some 1).
Proof. vm_compute. reflexivity. Qed.

Example matching_5 : matching (bs "<div></div>") 8 = Ok (Some 2).
Proof. vm_compute. reflexivity. Qed.

Example matching_6 : matching (bs "<div></div>") 9 = Ok (Some 3).
Proof. vm_compute. reflexivity. Qed.

Example matching_7 : matching (bs "<div></div>") 10 = Ok (Some 4).
Proof. vm_compute. reflexivity. Qed.

Example matching_8 : matching (bs "<div ></div>") 4 = Ok (Some 11).
Proof. vm_compute. reflexivity. Qed.

Example matching_9 : matching (bs "<div id=""foo""></div>") 4 = Ok (Some 19).
Proof. vm_compute. reflexivity. Qed.

Example matching_10 : matching (bs "<div ></div>") 11 = Ok (Some 4).
Proof. vm_compute. reflexivity. Qed.

Example matching_11 : matching (bs "<div id=""foo""></div>") 19 = Ok (Some 4).
Proof. vm_compute. reflexivity. Qed.

Example rename_0 : rename (bs "<div></div>") (bs "h1") 1 = Ok (Some (bs "<h1></h1>")).
Proof. vm_compute. reflexivity. Qed.

Example rename_1 : rename (bs "<div></div>") (bs "h1") 2 = Ok (Some (bs "<h1></h1>")).
Proof. vm_compute. reflexivity. Qed.

Example rename_2 : rename (bs "<div></div>") (bs "h1") 3 = Ok (Some (bs "<h1></h1>")).
Proof. vm_compute. reflexivity. Qed.

Example rename_3 : rename (bs "<div></div>") (bs "h1") 4 = Ok (Some (bs "<h1></h1>")).
Proof. vm_compute. reflexivity. Qed.

Example rename_4 : rename (bs "<div></div>") (bs "h1") 1 = Ok (Some (bs "<h1></h1>")).
Proof. vm_compute. reflexivity. Qed.

Example rename_5 : rename (bs "<div></div>") (bs "h1") 1 = Ok (Some (bs "<h1></h1>")).
Proof. vm_compute. reflexivity. Qed.

Example rename_6 : rename (bs "<div></div>") (bs "h1") 0 = Ok None.
Proof. vm_compute. reflexivity. Qed.

Example rename_7 : rename (bs "<div></div>") (bs "h1") 5 = Ok None.
Proof. vm_compute. reflexivity. Qed.

Example rename_8 : rename (bs "<div></div>") (bs "h1") 6 = Ok None.
Proof. vm_compute. reflexivity. Qed.

Example rename_9 : rename (bs "<div></div>") (bs "h1") 11 = Ok None.
Proof. vm_compute. reflexivity. Qed.

Example rename_10 : rename (bs "<div id=""foo""></div>") (bs "h1") 5 = Ok None.
Proof. vm_compute. reflexivity. Qed.

Example rename_11 : rename (bs "<div id=""foo""></div>") (bs "h1") 6 = Ok None.
Proof. vm_compute. reflexivity. Qed.

Example rename_12 : rename (bs "<div id=""foo""></div>") (bs "h1") 7 = Ok None.
Proof. vm_compute. reflexivity. Qed.

Example rename_13 : rename (bs "<div id=""foo""></div>") (bs "h1") 8 = Ok None.
Proof. vm_compute. reflexivity. Qed.

Example rename_14 : rename (bs "<div id=""foo""></div>") (bs "h1") 9 = Ok None.
Proof. vm_compute. reflexivity. Qed.

Example rename_15 : rename (bs "<div id=""foo""></div>") (bs "h1") 10 = Ok None.
Proof. vm_compute. reflexivity. Qed.

Example rename_16 : rename (bs "<div id=""foo""></div>") (bs "h1") 11 = Ok None.
Proof. vm_compute. reflexivity. Qed.

Example rename_17 : rename (bs "<div id=""foo""></div>") (bs "h1") 12 = Ok None.
Proof. vm_compute. reflexivity. Qed.

Example rename_18 : rename (bs "<div id=""foo""></div>") (bs "h1") 13 = Ok None.
Proof. vm_compute. reflexivity. Qed.

Example rename_19 : rename (bs "<br>") (bs "h1") 1 = Ok (Some (bs "<h1>")).
Proof. vm_compute. reflexivity. Qed.

Example rename_20 : rename (bs "<br/>") (bs "h1") 1 = Ok (Some (bs "<h1/>")).
Proof. vm_compute. reflexivity. Qed.

Example rename_21 : rename (bs "<br />") (bs "h1") 1 = Ok (Some (bs "<h1 />")).
Proof. vm_compute. reflexivity. Qed.

Example rename_22 : rename (bs "<div><h1></h1></div>") (bs "h2") 6 = Ok (Some (bs "<div><h2></h2></div>")).
Proof. vm_compute. reflexivity. Qed.

Example rename_23 : rename (bs "<div><h1></div>") (bs "h2") 6 = Ok (Some (bs "<div><h2></div>")).
Proof. vm_compute. reflexivity. Qed.

Example rename_24 : rename (bs "<div><h1></h1></div>") (bs "span") 1 = Ok (Some (bs "<span><h1></h1></span>")).
Proof. vm_compute. reflexivity. Qed.

Example infos_0 : infos (bs "<div></div>") = Ok [(bs "div", (0, 0), (0, 11), None)].
Proof. vm_compute. reflexivity. Qed.

Example infos_1 : infos (bs "<div><input checked id=""test"" class=""checkbox""></div>") = Ok [(bs "div", (0, 0), (0, 53), None); (bs "input#test.checkbox", (0, 5), (0, 47), Some (bs "div"))].
Proof. vm_compute. reflexivity. Qed.

Example symbols_2 : symbols (bs "<div></div>") = Ok [mkSym (bs "div") (0, 0) (0, 11) []].
Proof. vm_compute. reflexivity. Qed.

Example symbols_3 : symbols (bs "<div><input checked id=""test"" class=""checkbox""></div>") = Ok [mkSym (bs "div") (0, 0) (0, 53) [mkSym (bs "input#test.checkbox") (0, 5) (0, 47) []]].
Proof. vm_compute. reflexivity. Qed.

Example infos_5 : infos (bs "<html id='root'><body id=""Foo"" class=""bar""><div class=""a b""></div></body></html>") = Ok [(bs "html#root", (0, 0), (0, 80), None); (bs "body#Foo.bar", (0, 16), (0, 73), Some (bs "html#root")); (bs "div.a.b", (0, 43), (0, 66), Some (bs "body#Foo.bar"))].
Proof. vm_compute. reflexivity. Qed.

Example symbols_6 : symbols (bs "<html id='root'><body id=""Foo"" class=""bar""><div class=""a b""></div></body></html>") = Ok [mkSym (bs "html#root") (0, 0) (0, 80) [mkSym (bs "body#Foo.bar") (0, 16) (0, 73) [mkSym (bs "div.a.b") (0, 43) (0, 66) []]]].
Proof. vm_compute. reflexivity. Qed.

Example infos_8 : infos (bs "<html><br id=""Foo""><br id=Bar></html>") = Ok [(bs "html", (0, 0), (0, 37), None); (bs "br#Foo", (0, 6), (0, 19), Some (bs "html")); (bs "br#Bar", (0, 19), (0, 30), Some (bs "html"))].
Proof. vm_compute. reflexivity. Qed.

Example symbols_9 : symbols (bs "<html><br id=""Foo""><br id=Bar></html>") = Ok [mkSym (bs "html") (0, 0) (0, 37) [mkSym (bs "br#Foo") (0, 6) (0, 19) []; mkSym (bs "br#Bar") (0, 19) (0, 30) []]].
Proof. vm_compute. reflexivity. Qed.

Example infos_11 : infos (bs "<html><body><div></div></body></html>") = Ok [(bs "html", (0, 0), (0, 37), None); (bs "body", (0, 6), (0, 30), Some (bs "html")); (bs "div", (0, 12), (0, 23), Some (bs "body"))].
Proof. vm_compute. reflexivity. Qed.

Example symbols_12 : symbols (bs "<html><body><div></div></body></html>") = Ok [mkSym (bs "html") (0, 0) (0, 37) [mkSym (bs "body") (0, 6) (0, 30) [mkSym (bs "div") (0, 12) (0, 23) []]]].
Proof. vm_compute. reflexivity. Qed.
