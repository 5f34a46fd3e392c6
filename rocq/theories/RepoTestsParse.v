(** Tests of /repo/tests/parse.rs transcribed (generated by tools/gen_parse_tests.py).
    They validate the model's fidelity; they are tests, not proofs. *)
From Verif Require Import Base Stream Scanner Tree Parser.

Inductive json := J (tag : str) (s e : nat) (ets : option nat) (closed : bool) (ch : list json).
Fixpoint to_json (n : node) : json :=
  match n with mkNode tag s e ch cl _ ets _ =>
    J (match tag with Some x => x | None => [] end) s e ets cl (map to_json ch) end.
Definition parse_html (t : str) := parse demo_unicode t false html5_void.
Definition doc (t : str) : res (list json) :=
  match parse_html t with Ok l => Ok (map to_json l) | Panic r => Panic r | OutOfFuel => OutOfFuel end.
Inductive jattr := JA (tag : str) (attrs : list (str * attribute)) (ch : list jattr).
Fixpoint to_jattr (n : node) : jattr :=
  match n with mkNode tag _ _ ch _ _ _ at_ =>
    JA (match tag with Some x => x | None => [] end) at_ (map to_jattr ch) end.
Definition docattr (t : str) : res (list jattr) :=
  match parse_html t with Ok l => Ok (map to_jattr l) | Panic r => Panic r | OutOfFuel => OutOfFuel end.
Definition tag_before (t : str) (o : nat) : res (option str) :=
  do l <- parse_html t; do r <- find_node_before l o;
  Ok (match r with Some (n, _) => n_tag n | None => None end).
Definition token_in (t : str) (o : nat) : res token_type :=
  do l <- parse_html t; do r <- find_node_at l o;
  match r with Some (n, _) => find_token_type_in_node n o | None => Ok Unknown end.

Example doc_1 : doc (bs "<html></html>") = Ok [J (bs "html") 0 13 (Some 6) true []].
Proof. vm_compute. reflexivity. Qed.
Example doc_2 : doc (bs "<html><body></body></html>") = Ok [J (bs "html") 0 26 (Some 19) true [J (bs "body") 6 19 (Some 12) true []]].
Proof. vm_compute. reflexivity. Qed.
Example doc_3 : doc (bs "<html><head></head><body></body></html>") = Ok [J (bs "html") 0 39 (Some 32) true [J (bs "head") 6 19 (Some 12) true []; J (bs "body") 19 32 (Some 25) true []]].
Proof. vm_compute. reflexivity. Qed.
Example doc_4 : doc (bs "<br/>") = Ok [J (bs "br") 0 5 None true []].
Proof. vm_compute. reflexivity. Qed.
Example doc_5 : doc (bs "<div><br/><span></span></div>") = Ok [J (bs "div") 0 29 (Some 23) true [J (bs "br") 5 10 None true []; J (bs "span") 10 23 (Some 16) true []]].
Proof. vm_compute. reflexivity. Qed.
Example doc_6 : doc (bs "<meta>") = Ok [J (bs "meta") 0 6 None true []].
Proof. vm_compute. reflexivity. Qed.
Example doc_7 : doc (bs "<div><input type=""button""><span><br><br></span></div>") = Ok [J (bs "div") 0 53 (Some 47) true [J (bs "input") 5 26 None true []; J (bs "span") 26 47 (Some 40) true [J (bs "br") 32 36 None true []; J (bs "br") 36 40 None true []]]].
Proof. vm_compute. reflexivity. Qed.
Example doc_8 : doc (bs "</meta>") = Ok [].
Proof. vm_compute. reflexivity. Qed.
Example doc_9 : doc (bs "<div></div></div>") = Ok [J (bs "div") 0 11 (Some 5) true []].
Proof. vm_compute. reflexivity. Qed.
Example doc_10 : doc (bs "<div><div></div>") = Ok [J (bs "div") 0 16 None false [J (bs "div") 5 16 (Some 10) true []]].
Proof. vm_compute. reflexivity. Qed.
Example doc_11 : doc (bs "<title><div></title>") = Ok [J (bs "title") 0 20 (Some 12) true [J (bs "div") 7 12 None false []]].
Proof. vm_compute. reflexivity. Qed.
Example doc_12 : doc (bs "<h1><div><span></h1>") = Ok [J (bs "h1") 0 20 (Some 15) true [J (bs "div") 4 15 None false [J (bs "span") 9 15 None false []]]].
Proof. vm_compute. reflexivity. Qed.
Example doc_13 : doc (bs "<div><div</div>") = Ok [J (bs "div") 0 15 (Some 9) true [J (bs "div") 5 9 None false []]].
Proof. vm_compute. reflexivity. Qed.
Example doc_14 : doc ([60;100;105;118;62;60;100;105;118;10;60;47;100;105;118;62]%N) = Ok [J (bs "div") 0 16 (Some 10) true [J (bs "div") 5 10 None false []]].
Proof. vm_compute. reflexivity. Qed.
Example doc_15 : doc (bs "<div><div></div</div>") = Ok [J (bs "div") 0 21 (Some 15) true [J (bs "div") 5 15 (Some 10) true []]].
Proof. vm_compute. reflexivity. Qed.
Example doc_16 : doc ([60;115;99;114;105;112;116;62;47;42;42;32;230;179;168;233;135;138;32;42;47;60;47;115;99;114;105;112;116;62]%N) = Ok [J (bs "script") 0 30 (Some 21) true []].
Proof. vm_compute. reflexivity. Qed.
Example doc_17 : doc ([60;115;116;121;108;101;62;10;47;47;32;230;179;168;233;135;138;10;60;47;115;116;121;108;101;62]%N) = Ok [J (bs "style") 0 26 (Some 18) true []].
Proof. vm_compute. reflexivity. Qed.
Example before_1 : tag_before (bs "<div><input type=""button""><span><br><hr></span></div>") 0 = Ok None.
Proof. vm_compute. reflexivity. Qed.
Example before_2 : tag_before (bs "<div><input type=""button""><span><br><hr></span></div>") 1 = Ok (Some (bs "div")).
Proof. vm_compute. reflexivity. Qed.
Example before_3 : tag_before (bs "<div><input type=""button""><span><br><hr></span></div>") 5 = Ok (Some (bs "div")).
Proof. vm_compute. reflexivity. Qed.
Example before_4 : tag_before (bs "<div><input type=""button""><span><br><hr></span></div>") 6 = Ok (Some (bs "input")).
Proof. vm_compute. reflexivity. Qed.
Example before_5 : tag_before (bs "<div><input type=""button""><span><br><hr></span></div>") 25 = Ok (Some (bs "input")).
Proof. vm_compute. reflexivity. Qed.
Example before_6 : tag_before (bs "<div><input type=""button""><span><br><hr></span></div>") 26 = Ok (Some (bs "input")).
Proof. vm_compute. reflexivity. Qed.
Example before_7 : tag_before (bs "<div><input type=""button""><span><br><hr></span></div>") 27 = Ok (Some (bs "span")).
Proof. vm_compute. reflexivity. Qed.
Example before_8 : tag_before (bs "<div><input type=""button""><span><br><hr></span></div>") 32 = Ok (Some (bs "span")).
Proof. vm_compute. reflexivity. Qed.
Example before_9 : tag_before (bs "<div><input type=""button""><span><br><hr></span></div>") 33 = Ok (Some (bs "br")).
Proof. vm_compute. reflexivity. Qed.
Example before_10 : tag_before (bs "<div><input type=""button""><span><br><hr></span></div>") 36 = Ok (Some (bs "br")).
Proof. vm_compute. reflexivity. Qed.
Example before_11 : tag_before (bs "<div><input type=""button""><span><br><hr></span></div>") 37 = Ok (Some (bs "hr")).
Proof. vm_compute. reflexivity. Qed.
Example before_12 : tag_before (bs "<div><input type=""button""><span><br><hr></span></div>") 40 = Ok (Some (bs "hr")).
Proof. vm_compute. reflexivity. Qed.
Example before_13 : tag_before (bs "<div><input type=""button""><span><br><hr></span></div>") 41 = Ok (Some (bs "hr")).
Proof. vm_compute. reflexivity. Qed.
Example before_14 : tag_before (bs "<div><input type=""button""><span><br><hr></span></div>") 42 = Ok (Some (bs "hr")).
Proof. vm_compute. reflexivity. Qed.
Example before_15 : tag_before (bs "<div><input type=""button""><span><br><hr></span></div>") 47 = Ok (Some (bs "span")).
Proof. vm_compute. reflexivity. Qed.
Example before_16 : tag_before (bs "<div><input type=""button""><span><br><hr></span></div>") 48 = Ok (Some (bs "span")).
Proof. vm_compute. reflexivity. Qed.
Example before_17 : tag_before (bs "<div><input type=""button""><span><br><hr></span></div>") 52 = Ok (Some (bs "span")).
Proof. vm_compute. reflexivity. Qed.
Example before_18 : tag_before (bs "<div><input type=""button""><span><br><hr></span></div>") 53 = Ok (Some (bs "div")).
Proof. vm_compute. reflexivity. Qed.
Example before_19 : tag_before (bs "<div><span><br></div>") 15 = Ok (Some (bs "br")).
Proof. vm_compute. reflexivity. Qed.
Example before_20 : tag_before (bs "<div><span><br></div>") 18 = Ok (Some (bs "br")).
Proof. vm_compute. reflexivity. Qed.
Example before_21 : tag_before (bs "<div><span><br></div>") 21 = Ok (Some (bs "div")).
Proof. vm_compute. reflexivity. Qed.
Example token_in_0 : token_in (bs "<div><input type=""button""/><span>content</span></div>") 0 = Ok StartTagOpen.
Proof. vm_compute. reflexivity. Qed.
Example token_in_1 : token_in (bs "<div><input type=""button""/><span>content</span></div>") 1 = Ok StartTag.
Proof. vm_compute. reflexivity. Qed.
Example token_in_3 : token_in (bs "<div><input type=""button""/><span>content</span></div>") 3 = Ok StartTag.
Proof. vm_compute. reflexivity. Qed.
Example token_in_4 : token_in (bs "<div><input type=""button""/><span>content</span></div>") 4 = Ok StartTagClose.
Proof. vm_compute. reflexivity. Qed.
Example token_in_5 : token_in (bs "<div><input type=""button""/><span>content</span></div>") 5 = Ok StartTagOpen.
Proof. vm_compute. reflexivity. Qed.
Example token_in_6 : token_in (bs "<div><input type=""button""/><span>content</span></div>") 6 = Ok StartTag.
Proof. vm_compute. reflexivity. Qed.
Example token_in_10 : token_in (bs "<div><input type=""button""/><span>content</span></div>") 10 = Ok StartTag.
Proof. vm_compute. reflexivity. Qed.
Example token_in_11 : token_in (bs "<div><input type=""button""/><span>content</span></div>") 11 = Ok Unknown.
Proof. vm_compute. reflexivity. Qed.
Example token_in_24 : token_in (bs "<div><input type=""button""/><span>content</span></div>") 24 = Ok Unknown.
Proof. vm_compute. reflexivity. Qed.
Example token_in_25 : token_in (bs "<div><input type=""button""/><span>content</span></div>") 25 = Ok StartTagSelfClose.
Proof. vm_compute. reflexivity. Qed.
Example token_in_26 : token_in (bs "<div><input type=""button""/><span>content</span></div>") 26 = Ok StartTagSelfClose.
Proof. vm_compute. reflexivity. Qed.
Example token_in_27 : token_in (bs "<div><input type=""button""/><span>content</span></div>") 27 = Ok StartTagOpen.
Proof. vm_compute. reflexivity. Qed.
Example token_in_28 : token_in (bs "<div><input type=""button""/><span>content</span></div>") 28 = Ok StartTag.
Proof. vm_compute. reflexivity. Qed.
Example token_in_31 : token_in (bs "<div><input type=""button""/><span>content</span></div>") 31 = Ok StartTag.
Proof. vm_compute. reflexivity. Qed.
Example token_in_32 : token_in (bs "<div><input type=""button""/><span>content</span></div>") 32 = Ok StartTagClose.
Proof. vm_compute. reflexivity. Qed.
Example token_in_33 : token_in (bs "<div><input type=""button""/><span>content</span></div>") 33 = Ok Content.
Proof. vm_compute. reflexivity. Qed.
Example token_in_39 : token_in (bs "<div><input type=""button""/><span>content</span></div>") 39 = Ok Content.
Proof. vm_compute. reflexivity. Qed.
Example token_in_40 : token_in (bs "<div><input type=""button""/><span>content</span></div>") 40 = Ok EndTagOpen.
Proof. vm_compute. reflexivity. Qed.
Example token_in_41 : token_in (bs "<div><input type=""button""/><span>content</span></div>") 41 = Ok EndTagOpen.
Proof. vm_compute. reflexivity. Qed.
Example token_in_42 : token_in (bs "<div><input type=""button""/><span>content</span></div>") 42 = Ok EndTag.
Proof. vm_compute. reflexivity. Qed.
Example token_in_45 : token_in (bs "<div><input type=""button""/><span>content</span></div>") 45 = Ok EndTag.
Proof. vm_compute. reflexivity. Qed.
Example token_in_46 : token_in (bs "<div><input type=""button""/><span>content</span></div>") 46 = Ok EndTagClose.
Proof. vm_compute. reflexivity. Qed.
Example token_in_47 : token_in (bs "<div><input type=""button""/><span>content</span></div>") 47 = Ok EndTagOpen.
Proof. vm_compute. reflexivity. Qed.
Example token_in_48 : token_in (bs "<div><input type=""button""/><span>content</span></div>") 48 = Ok EndTagOpen.
Proof. vm_compute. reflexivity. Qed.
Example token_in_49 : token_in (bs "<div><input type=""button""/><span>content</span></div>") 49 = Ok EndTag.
Proof. vm_compute. reflexivity. Qed.
Example token_in_51 : token_in (bs "<div><input type=""button""/><span>content</span></div>") 51 = Ok EndTag.
Proof. vm_compute. reflexivity. Qed.
Example token_in_52 : token_in (bs "<div><input type=""button""/><span>content</span></div>") 52 = Ok EndTagClose.
Proof. vm_compute. reflexivity. Qed.
Example attrs_1 : docattr (bs "<div class=""these are my-classes"" id=""test""><span aria-describedby=""test""></span></div>") = Ok [JA (bs "div") [(bs "class", mkAttr (Some (bs """these are my-classes""")) 5); (bs "id", mkAttr (Some (bs """test""")) 34)] [JA (bs "span") [(bs "aria-describedby", mkAttr (Some (bs """test""")) 50)] []]].
Proof. vm_compute. reflexivity. Qed.
Example attrs_2 : docattr (bs "<div checked id=""test""></div>") = Ok [JA (bs "div") [(bs "checked", mkAttr None 5); (bs "id", mkAttr (Some (bs """test""")) 13)] []].
Proof. vm_compute. reflexivity. Qed.
Example attrs_3 : docattr (bs "<div id=test""></div>") = Ok [JA (bs "div") [(bs "id", mkAttr (Some (bs "test""")) 5)] []].
Proof. vm_compute. reflexivity. Qed.
Example attrs_4 : docattr (bs "<div checked= id=""test""></div>") = Ok [JA (bs "div") [(bs "checked", mkAttr (Some (bs "")) 5); (bs "id", mkAttr (Some (bs """test""")) 14)] []].
Proof. vm_compute. reflexivity. Qed.
Example attrs_5 : docattr (bs "<div = =""abc"" id=test""></div>") = Ok [JA (bs "div") [(bs "id", mkAttr (Some (bs "test""")) 14)] []].
Proof. vm_compute. reflexivity. Qed.
