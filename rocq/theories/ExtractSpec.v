(** Vocabulary of C71. *)
From Verif Require Export ExtractModel TreeSpec.
From Coq Require Import String.
Open Scope Z_scope.

(** A string without white space. *)
Definition visible (s : list Z) : list Z := filter (fun c => negb (is_white c)) s.
(** What a reader finds, as a string: a picture stands for "<image>". *)
Definition glyph_codes (g : glyph * list style) : list Z := match fst g with GChar c _ => [ch_c c] | GImage _ _ => codes "<image>" end.
Definition text_codes (l : list (glyph * list style)) : list Z := flat_map glyph_codes l.
(** The lines of a string. *)
Fixpoint lines_of (s : list Z) : list (list Z) :=
  match s with
  | [] => [[]]
  | c :: t => if Z.eqb c 10 then [] :: lines_of t else match lines_of t with l :: r => (c :: l) :: r | [] => [[c]] end
  end.
(** The cell has no table in it. *)
Definition no_nested (c : scell) : Prop := forall b, In b (snd c) -> exists t, b = ST t.
(** The tables of a page that are asked for. *)
Definition wanted (extract_stream : bool) (x : bool * sblock) : bool :=
  match snd x with STable _ _ => extract_stream || fst x | ST _ => false end.
Definition rows_of (b : sblock) : list (Q * list scell) := match b with STable _ rows => rows | ST _ => [] end.
