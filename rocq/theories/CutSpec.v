(** Vocabulary of C81. *)
From Verif Require Export CutModel TreeSpec RunSpec.
From Verif Require Import ParaSpec.
Open Scope nat_scope.

(** A piece of text that a Word file cannot hold: with a character that XML does not allow, in its text or the name of its font, or of (almost) no size. *)
Definition unwritable (names : nat -> list Z) (t : tspan) : Prop :=
  (exists c, In c (ts_text t ++ names (at_font (ts_attrs t))) /\ xml_char c = false) \/ (at_size (ts_attrs t) <= 1 # 4)%Q.
Definition writable (names : nat -> list Z) (s : span) : Prop := match s with SText t => ~ unwritable names t | SImage _ _ => True end.
(** Sizes and colours as PDF files have them. *)
Definition usual (s : span) : Prop := match s with SText t => (0 <= at_size (ts_attrs t))%Q /\ color_value (at_color (ts_attrs t)) | SImage _ _ => True end.
(** The pieces of text and the pictures of a block in the order of a Word body, into the cells of tables row by row. *)
Fixpoint spans_of (b : sblock) : list span :=
  match b with
  | ST t => flat_map ln_spans (st_lines t)
  | STable _ rows => flat_map (fun row : Q * list (option bcell * bool * list sblock) => flat_map (fun c : option bcell * bool * list sblock => flat_map spans_of (snd c)) (snd row)) rows
  end.
Definition page_spans (p : spage) : list span := flat_map spans_of (sp_blocks p).
(** [text] is all of [ss]; or, if [ok] is false, what comes before the first piece that cannot be written, and of this a part from
    its start, of characters that XML allows. *)
Definition legal (g : glyph * list style) : Prop := match fst g with GChar c _ => xml_char (ch_c c) = true | GImage _ _ => True end.
Inductive shows_until (names : nat -> list Z) (ss : list span) (text : list (glyph * list style)) : bool -> Prop :=
| all_shown : (forall s, In s ss -> writable names s) -> text = styled ss -> shows_until names ss text true
| cut_off a t b part rest : ss = a ++ SText t :: b -> (forall s, In s a -> writable names s) -> unwritable names t ->
    text = styled a ++ part -> styled [SText t] = part ++ rest -> (forall g, In g part -> legal g) -> shows_until names ss text false.
(** The first page does not begin with a table that is close to its top and cannot be written in full (C79_first_table_refuted). *)
Definition starts_well (names : nat -> list Z) (p : spage) : Prop :=
  forall before rows bs, sp_blocks p = STable before rows :: bs -> (7 # 10 <= tp_before before)%Q \/ (forall s, In s (spans_of (STable before rows)) -> writable names s).
