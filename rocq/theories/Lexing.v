(** * The tokens of a well-formed document

    This is a specification: nothing here models code of /repo.  It says, for the
    documents of [Render], which pieces of text the scanner's clients see and of
    which kind each piece is. *)
From Verif Require Import Base Scanner Tree Render.

Definition piece : Type := token_type * str.

(** ** What each part of a document is cut into *)
Definition lex_value (v : hvalue) : list piece :=
  match v with
  | NoValue => []
  | Bare gap v => [(Whitespace, gap); (DelimiterAssign, bs "="); (AttributeValue, v)]
  | Quoted gap q v => [(Whitespace, gap); (DelimiterAssign, bs "="); (AttributeValue, [q] ++ v ++ [q])]
  end.
Definition lex_attr (a : hattr) : list piece :=
  [(Whitespace, ha_space a); (AttributeName, ha_name a)] ++ lex_value (ha_value a).
Definition lex_start (name : str) (attrs : list hattr) (pad : str) (stop : piece) : list piece :=
  [(StartTagOpen, bs "<"); (StartTag, name)] ++ flat_map lex_attr attrs ++ [(Whitespace, pad); stop].
Definition lex_end (name pad : str) : list piece :=
  [(EndTagOpen, bs "</"); (EndTag, name); (Whitespace, pad); (EndTagClose, bs ">")].
Fixpoint lex (h : html) : list piece :=
  match h with
  | HText s => [(Content, s)]
  | HComment s => [(StartCommentTag, bs "<!--"); (Comment, s); (EndCommentTag, bs "-->")]
  | HDoctype word s => [(StartDoctypeTag, bs "<!" ++ word); (Doctype, s); (EndDoctypeTag, bs ">")]
  | HElement name attrs pad body close pad2 =>
      lex_start name attrs pad (StartTagClose, bs ">") ++ flat_map lex body ++ lex_end close pad2
  | HRaw name attrs pad s pad2 =>
      lex_start name attrs pad (StartTagClose, bs ">") ++
      [((if beq name (bs "script") then Script else Styles), s)] ++ lex_end name pad2
  | HVoid name attrs pad => lex_start name attrs pad (StartTagClose, bs ">")
  | HSelf name attrs pad => lex_start name attrs pad (StartTagSelfClose, bs "/>")
  end.
(** Pieces that are empty are no tokens. *)
Definition written (p : piece) : bool := match snd p with [] => false | _ => true end.
Definition lex_all (l : list html) : list piece := filter written (flat_map lex l).

(** The pieces are all of the document. *)
Definition joined (l : list piece) : str := flat_map snd l.
Lemma joined_app a b : joined (a ++ b) = joined a ++ joined b.
Proof. apply flat_map_app. Qed.
Lemma joined_attrs l : joined (flat_map lex_attr l) = render_attrs l.
Proof.
  induction l as [|a l IH]; auto. cbn [flat_map render_attrs]. rewrite joined_app, IH. f_equal.
  unfold joined, lex_attr, render_attr. destruct (ha_value a); cbn [lex_value flat_map app snd render_value];
    rewrite ?app_nil_r, <- ?app_assoc; reflexivity.
Qed.
Lemma joined_start name attrs pad k stop : joined (lex_start name attrs pad (k, stop)) = start_tag name attrs pad stop.
Proof.
  unfold lex_start, start_tag. rewrite !joined_app, joined_attrs. cbn [joined flat_map snd].
  rewrite !app_nil_r, <- !app_assoc. reflexivity.
Qed.
Lemma joined_end name pad : joined (lex_end name pad) = end_tag name pad.
Proof. unfold joined, lex_end, end_tag. cbn [flat_map snd]. rewrite app_nil_r. reflexivity. Qed.
Lemma joined_lex : forall h, joined (lex h) = render h.
Proof.
  fix IH 1. intros h. destruct h as [s|s|w s|name attrs pad body close pad2|name attrs pad s pad2|name attrs pad|name attrs pad];
    cbn [lex render].
  - apply app_nil_r.
  - unfold joined. cbn [flat_map snd]. rewrite app_nil_r. reflexivity.
  - unfold joined. cbn [flat_map snd]. rewrite app_nil_r, <- app_assoc. reflexivity.
  - rewrite !joined_app, joined_start, joined_end. f_equal. f_equal.
    revert body. fix IHl 1. intros body. destruct body as [|h l]; [reflexivity|]. cbn [flat_map].
    rewrite joined_app, IH, IHl. reflexivity.
  - rewrite !joined_app, joined_start, joined_end. cbn [joined flat_map snd]. rewrite app_nil_r. reflexivity.
  - apply joined_start.
  - apply joined_start.
Qed.
Lemma joined_written l : joined (filter written l) = joined l.
Proof.
  induction l as [|[k s] l IH]; auto. cbn [filter]. unfold written at 1. cbn [snd].
  destruct s as [|b s]; cbn [joined flat_map snd]; change (flat_map snd) with joined; rewrite IH; reflexivity.
Qed.
Lemma joined_all l : joined (lex_all l) = render_all l.
Proof.
  unfold lex_all. rewrite joined_written. induction l as [|h l IH]; auto. cbn [flat_map render_all].
  rewrite joined_app, joined_lex, IH. reflexivity.
Qed.
