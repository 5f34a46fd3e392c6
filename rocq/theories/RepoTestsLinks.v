(** Tests of /repo/tests/links.rs transcribed (generated by tools/gen_links_tests.py).
    They validate the model's fidelity; they are tests, not proofs. *)
From Verif Require Import Base Stream Scanner Tree TextDoc DataManager Uri Links.

Definition links (uri text : str) : res (list link) :=
  find_document_links demo_unicode rfc_uri (resolve_reference rfc_uri) uri (utf16_doc text) false.
Definition link_creation (uri token : str) : res (option str) :=
  do l <- links uri (bs "<a href=""" ++ token ++ bs """");
  Ok match l with k :: _ => lk_target k | [] => None end.
Definition link_detection : str -> res (list link) := links (bs "file:///test/data/abc/test.html").
Definition lk (a b : nat) (target : str) : link :=
  mkLink {| r_start := {| line := 0; character := a |}; r_end := {| line := 0; character := b |} |} (Some target).

Example link_0 : link_creation (bs "http://model/1.html") (bs "javascript:void;") = Ok None.
Proof. vm_compute. reflexivity. Qed.
Example link_1 : link_creation (bs "http://model/1.html") (bs " " ++ [9%N] ++ bs "javascript:alert(7);") = Ok None.
Proof. vm_compute. reflexivity. Qed.
Example link_2 : link_creation (bs "http://model/1.html") (bs " #relative") = Ok (Some (bs "http://model/1.html")).
Proof. vm_compute. reflexivity. Qed.
Example link_3 : link_creation (bs "http://model/1.html") (bs "file:///C:\Alex\src\path\to\file.txt") = Ok (Some (bs "file:///C:/Alex/src/path/to/file.txt")).
Proof. vm_compute. reflexivity. Qed.
Example link_4 : link_creation (bs "http://model/1.html") (bs "http://www.microsoft.com/") = Ok (Some (bs "http://www.microsoft.com/")).
Proof. vm_compute. reflexivity. Qed.
Example link_5 : link_creation (bs "http://model/1.html") (bs "https://www.microsoft.com/") = Ok (Some (bs "https://www.microsoft.com/")).
Proof. vm_compute. reflexivity. Qed.
Example link_6 : link_creation (bs "http://model/1.html") (bs "//www.microsoft.com/") = Ok (Some (bs "http://www.microsoft.com/")).
Proof. vm_compute. reflexivity. Qed.
Example link_7 : link_creation (bs "http://model/x/1.html") (bs "a.js") = Ok (Some (bs "http://model/x/a.js")).
Proof. vm_compute. reflexivity. Qed.
Example link_8 : link_creation (bs "http://model/x/1.html") (bs "./a2.js") = Ok (Some (bs "http://model/x/a2.js")).
Proof. vm_compute. reflexivity. Qed.
Example link_9 : link_creation (bs "http://model/x/1.html") (bs "/b.js") = Ok (Some (bs "http://model/b.js")).
Proof. vm_compute. reflexivity. Qed.
Example link_10 : link_creation (bs "http://model/x/y/1.html") (bs "../../c.js") = Ok (Some (bs "http://model/c.js")).
Proof. vm_compute. reflexivity. Qed.
Example link_11 : link_creation (bs "file:///C:/Alex/src/path/to/file.html") (bs "javascript:void;") = Ok None.
Proof. vm_compute. reflexivity. Qed.
Example link_12 : link_creation (bs "file:///C:/Alex/src/path/to/file.html") (bs " " ++ [9%N] ++ bs "javascript:alert(7);") = Ok None.
Proof. vm_compute. reflexivity. Qed.
Example link_13 : link_creation (bs "file:///C:/Alex/src/path/to/file.html") (bs " #relative") = Ok (Some (bs "file:///C:/Alex/src/path/to/file.html")).
Proof. vm_compute. reflexivity. Qed.
Example link_14 : link_creation (bs "file:///C:/Alex/src/path/to/file.html") (bs "file:///C:\Alex\src\path\to\file.txt") = Ok (Some (bs "file:///C:/Alex/src/path/to/file.txt")).
Proof. vm_compute. reflexivity. Qed.
Example link_15 : link_creation (bs "file:///C:/Alex/src/path/to/file.html") (bs "http://www.microsoft.com/") = Ok (Some (bs "http://www.microsoft.com/")).
Proof. vm_compute. reflexivity. Qed.
Example link_16 : link_creation (bs "file:///C:/Alex/src/path/to/file.html") (bs "https://www.microsoft.com/") = Ok (Some (bs "https://www.microsoft.com/")).
Proof. vm_compute. reflexivity. Qed.
Example link_17 : link_creation (bs "file:///C:/Alex/src/path/to/file.html") (bs "  //www.microsoft.com/") = Ok (Some (bs "http://www.microsoft.com/")).
Proof. vm_compute. reflexivity. Qed.
Example link_18 : link_creation (bs "file:///C:/Alex/src/path/to/file.html") (bs "a.js") = Ok (Some (bs "file:///C:/Alex/src/path/to/a.js")).
Proof. vm_compute. reflexivity. Qed.
Example link_19 : link_creation (bs "file:///C:/Alex/src/path/to/file.html") (bs "/a.js") = Ok (Some (bs "file:///C:/a.js")).
Proof. vm_compute. reflexivity. Qed.
Example link_20 : link_creation (bs "https://www.test.com/path/to/file.html") (bs "file:///C:\Alex\src\path\to\file.txt") = Ok (Some (bs "file:///C:/Alex/src/path/to/file.txt")).
Proof. vm_compute. reflexivity. Qed.
Example link_21 : link_creation (bs "https://www.test.com/path/to/file.html") (bs "//www.microsoft.com/") = Ok (Some (bs "https://www.microsoft.com/")).
Proof. vm_compute. reflexivity. Qed.
Example link_22 : link_creation (bs "https://www.test.com/path/to/file.html") (bs "//www.microsoft.com/") = Ok (Some (bs "https://www.microsoft.com/")).
Proof. vm_compute. reflexivity. Qed.
Example link_23 : link_creation (bs "https://www.test.com/path/to/file.html") (bs "%") = Ok None.
Proof. vm_compute. reflexivity. Qed.
Example link_24 : link_creation (bs "file:///c:/Alex/working_dir/18314-link-detection/test.html") (bs "/class/class.js") = Ok (Some (bs "file:///c:/class/class.js")).
Proof. vm_compute. reflexivity. Qed.
Example link_25 : link_creation (bs "http://foo/bar.hbs") (bs "/class/class.js") = Ok (Some (bs "http://foo/class/class.js")).
Proof. vm_compute. reflexivity. Qed.
Example link_26 : link_detection (bs "<img src=""foo.png"">") = Ok [lk 10 17 (bs "file:///test/data/abc/foo.png")].
Proof. vm_compute. reflexivity. Qed.
Example link_27 : link_detection (bs "<a href=""http://server/foo.html"">") = Ok [lk 9 31 (bs "http://server/foo.html")].
Proof. vm_compute. reflexivity. Qed.
Example link_28 : link_detection (bs "<img src="""">") = Ok [].
Proof. vm_compute. reflexivity. Qed.
Example link_29 : link_detection (bs "<LINK HREF=""a.html"">") = Ok [lk 12 18 (bs "file:///test/data/abc/a.html")].
Proof. vm_compute. reflexivity. Qed.
Example link_30 : link_detection (bs "<LINK HREF=""a.html" ++ [10%N] ++ bs ">" ++ [10%N]) = Ok [].
Proof. vm_compute. reflexivity. Qed.
Example link_31 : link_detection (bs "<a href=http://www.example.com></a>") = Ok [lk 8 30 (bs "http://www.example.com")].
Proof. vm_compute. reflexivity. Qed.
Example link_32 : link_detection (bs "<html><base href=""docs/""><img src=""foo.png""></html>") = Ok [lk 35 42 (bs "file:///test/data/abc/docs/foo.png")].
Proof. vm_compute. reflexivity. Qed.
Example link_33 : link_detection (bs "<html><base href=""http://www.example.com/page.html""><img src=""foo.png""></html>") = Ok [lk 62 69 (bs "http://www.example.com/foo.png")].
Proof. vm_compute. reflexivity. Qed.
Example link_34 : link_detection (bs "<html><base href=""..""><img src=""foo.png""></html>") = Ok [lk 32 39 (bs "file:///test/data/foo.png")].
Proof. vm_compute. reflexivity. Qed.
Example link_35 : link_detection (bs "<html><base href="".""><img src=""foo.png""></html>") = Ok [lk 31 38 (bs "file:///test/data/abc/foo.png")].
Proof. vm_compute. reflexivity. Qed.
Example link_36 : link_detection (bs "<html><base href=""/docs/""><img src=""foo.png""></html>") = Ok [lk 36 43 (bs "file:///docs/foo.png")].
Proof. vm_compute. reflexivity. Qed.
Example link_37 : link_detection (bs "<a href=""mailto:<%- mail %>@<%- domain %>"" > <% - mail %>@<% - domain %> </a>") = Ok [].
Proof. vm_compute. reflexivity. Qed.
Example link_38 : link_detection (bs "<link rel=""icon"" type=""image/x-icon"" href=""data:@file/x-icon;base64#,AAABAAIAQEAAAAEAIAAoQgAAJgA"">") = Ok [].
Proof. vm_compute. reflexivity. Qed.
Example link_39 : link_detection (bs "<blockquote cite=""foo.png"">") = Ok [lk 18 25 (bs "file:///test/data/abc/foo.png")].
Proof. vm_compute. reflexivity. Qed.
Example link_40 : link_detection (bs "<style src=""styles.css?t=345"">") = Ok [lk 12 28 (bs "file:///test/data/abc/styles.css")].
Proof. vm_compute. reflexivity. Qed.
Example link_41 : link_detection (bs "<a href=""https://werkenvoor.be/nl/jobs?f%5B0%5D=activitydomains%3A115&f%5B1%5D=lang%3Anl"">link</a>") = Ok [lk 9 88 (bs "https://werkenvoor.be/nl/jobs?f%5B0%5D=activitydomains%3A115&f%5B1%5D=lang%3Anl")].
Proof. vm_compute. reflexivity. Qed.
Example link_42 : link_detection (bs "<a href=""jobs.html?f=bar"">link</a>") = Ok [lk 9 24 (bs "file:///test/data/abc/jobs.html")].
Proof. vm_compute. reflexivity. Qed.
Example link_43 : link_detection (bs "<body><h1 id=""title""></h1><a href=""#title""</a></body>") = Ok [lk 35 41 (bs "file:///test/data/abc/test.html#1,14")].
Proof. vm_compute. reflexivity. Qed.
Example link_44 : link_detection (bs "<body><h1 id=""title""></h1><a href=""file:///test/data/abc/test.html#title""</a></body>") = Ok [lk 35 72 (bs "file:///test/data/abc/test.html#1,14")].
Proof. vm_compute. reflexivity. Qed.
Example link_45 : link_detection (bs "<body><h1 id=""title""></h1><a href=""#body""</a></body>") = Ok [lk 35 40 (bs "file:///test/data/abc/test.html")].
Proof. vm_compute. reflexivity. Qed.
