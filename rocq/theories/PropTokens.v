(** * C73: the tokens of a well-formed document *)
From Verif Require Import Base BaseFacts Stream Scanner ScannerFacts ScanStep ScanComplete ScanPanic ScanProps
  Tree ParseSpec PropParse Render RenderFacts Lexing TokenRun.
From Coq Require Import ZifyBool ZifyNat ZifyN.

(** ** Specification *)
(** Where the pieces [l], written one after the other from offset [o], are. *)
Fixpoint place (o : nat) (l : list piece) : list (token_type * nat * nat) :=
  match l with
  | [] => []
  | (k, s) :: r => (k, o, o + length s) :: place (o + length s) r
  end.
Definition seen (k : token) : token_type * nat * nat := (tk_type k, tk_off k, tk_end k).

Lemma place_app l m : forall o, place o (l ++ m) = place o l ++ place (o + length (joined l)) m.
Proof.
  induction l as [|[k s] l IH]; intros o; cbn [app place].
  - cbn. rewrite Nat.add_0_r. reflexivity.
  - rewrite IH. cbn [joined flat_map snd]. rewrite app_length, Nat.add_assoc. reflexivity.
Qed.

Section T.
Variables (U : unicode) (t : str) (emit cs : bool).
Notation trun := (trun U t emit cs).
Lemma trun_tokens sc l sc2 : trun sc l sc2 -> forall f ks z, tokens U t emit cs f sc2 = Ok (ks, z) ->
  exists ks', tokens U t emit cs (f + length (filter written l)) sc = Ok (ks' ++ ks, z) /\
    map seen ks' = place (pos sc) (filter written l) /\
    map (fun k => (tk_type k, tk_text t k)) ks' = filter written l /\
    Forall (fun k => tk_err k = None) ks'.
Proof.
  induction 1 as [sc|sc k l sc2 _ IH|sc sc1 s l sc2 S N NE O E P SB _ IH]; intros f ks z H.
  - exists []. cbn. rewrite Nat.add_0_r. auto.
  - apply IH. auto.
  - destruct (IH _ _ _ H) as (ks' & T & A & B & C). exists (token_of sc1 :: ks').
    assert (W : filter written ((tok sc1, s) :: l) = (tok sc1, s) :: filter written l).
    { cbn [filter]. unfold written at 1. cbn [snd]. destruct s; [tauto|reflexivity]. }
    rewrite W. cbn [length]. replace (f + Datatypes.S (length (filter written l))) with
      (Datatypes.S (f + length (filter written l))) by lia. cbn [tokens]. rewrite S. cbn [bind].
    apply token_eqb_neq in N. rewrite N, T. cbn [bind app]. split; [reflexivity|].
    cbn [map place]. rewrite A, B. unfold seen at 1, tk_text. cbn [token_of tk_type tk_off tk_end tk_err].
    rewrite O, SB, P. auto.
Qed.
End T.

Lemma good_utf8 U cs void l : good_doc U cs void l -> Utf8 (render_all l).
Proof.
  intros [G _]. induction G; [apply u_nil|]. cbn [render_all flat_map]. apply u_app; auto. eapply render_utf8; eauto.
Qed.
Lemma written_length l : length (filter written l) <= length (joined l).
Proof.
  induction l as [|[k s] l IH]; [auto|]. cbn [filter joined flat_map snd]. rewrite app_length.
  unfold written at 1. cbn [snd]. change (flat_map snd l) with (joined l). destruct s; cbn [length]; lia.
Qed.

(** ** C73 *)
(** Scanning a well-formed document gives its pieces: in their order, each with its
    kind, its text and its place, none of them with an error, and nothing else,
    with or without pseudo close tags ([emit]). *)
Theorem C73_tokens : forall U cs void emit l, good_doc U cs void l ->
  exists ks z, tokens U (render_all l) emit cs (2 * length (render_all l) + 2) (scanner_new 0 WithinContent) = Ok (ks, z) /\
    map (fun k => (tk_type k, tk_text (render_all l) k)) ks = lex_all l /\
    map seen ks = place 0 (lex_all l) /\
    Forall (fun k => tk_err k = None) ks.
Proof.
  intros U cs void emit l GD. pose proof (good_utf8 _ _ _ _ GD) as HU. destruct GD as [G NS]. set (t := render_all l) in *.
  set (sc0 := scanner_new 0 WithinContent).
  assert (A : at_ t (pos sc0) (render_all l ++ [])) by (rewrite app_nil_r; split; [reflexivity|apply Bd_0; auto]).
  assert (IR : Forall (item_runs U t emit cs void) l).
  { eapply Forall_impl; [|exact G]. intros h Gh. apply item_ok; auto. }
  destruct (list_from_items U t emit cs void HU l IR sc0 [] G NS eq_refl A (or_introl eq_refl)) as (s1 & R1 & S1 & P1).
  cbn [pos sc0 scanner_new] in P1. fold t in P1.
  set (n := length (filter written (flat_map lex l))).
  assert (L : n <= length t).
  { unfold n, t. rewrite written_length, <- joined_written. fold (lex_all l). rewrite joined_all. auto. }
  assert (E : exists z, tokens U t emit cs (2 * length t + 2 - n) s1 = Ok ([], z)).
  { replace (2 * length t + 2 - n) with (Datatypes.S (2 * length t + 1 - n)) by lia. cbn [tokens].
    rewrite scan_internal by auto. unfold internal_scan. rewrite S1. unfold scan_content.
    rewrite eos_or_end by lia. cbn [bind tok finish]. change (token_eqb EOS EOS) with true. cbn iota. eauto. }
  destruct E as (z & E). destruct (trun_tokens _ _ _ _ _ _ _ R1 _ _ _ E) as (ks & T & Q1 & Q2 & Q3).
  exists ks, z. fold n in T. replace (2 * length t + 2 - n + n) with (2 * length t + 2) in T by lia.
  rewrite app_nil_r in T. split; auto.
Qed.
Print Assumptions C73_tokens.
(** The pieces are the document. *)
Theorem C73_pieces : forall l, flat_map snd (lex_all l) = render_all l.
Proof. exact joined_all. Qed.
Print Assumptions C73_pieces.

(** ** A document *)
From Verif Require Import Parser PropRender.
Definition demo_tokens : list token := Eval vm_compute in
  match tokens demo_unicode (render_all demo) true false (2 * length (render_all demo) + 2) (scanner_new 0 WithinContent) with
  | Ok (ks, _) => ks | _ => [] end.
Example C73_demo : good_doc demo_unicode false html5_void demo /\
  map (fun k => (tk_type k, tk_text (render_all demo) k)) demo_tokens = lex_all demo /\
  length demo_tokens = 58 /\ length (render_all demo) = 167 /\
  firstn 8 (skipn 3 (lex_all demo)) =
    [(StartTagOpen, bs "<"); (StartTag, bs "main"); (Whitespace, bs " "); (AttributeName, bs "id");
     (DelimiterAssign, bs "="); (AttributeValue, bs """a>b"""); (Whitespace, bs "  "); (AttributeName, bs "hidden")].
Proof. split; [exact demo_good|]. vm_compute. auto. Qed.
