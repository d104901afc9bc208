(** Vocabulary of the properties on tables, cells and their contents (C32, C33). *)
From Verif Require Export AssignModel TextSpec.
Open Scope Q_scope.

(** Boxes without common interior: one is beside or below the other. *)
Definition apart (a b : rect) : Prop := rx1 a <= rx0 b \/ rx1 b <= rx0 a \/ ry1 a <= ry0 b \/ ry1 b <= ry0 a.
(** Area of the common part of two boxes. *)
Definition shared (a b : rect) : Q :=
  qmax 0 (qmin (rx1 a) (rx1 b) - qmax (rx0 a) (rx0 b)) * qmax 0 (qmin (ry1 a) (ry1 b) - qmax (ry0 a) (ry0 b)).
Definition coversb (a b : rect) : bool := qle (rx0 a) (rx0 b) && qle (ry0 a) (ry0 b) && qle (rx1 b) (rx1 a) && qle (ry1 b) (ry1 a).

(** What is to be distributed: text lines, and tables (which are not divided). *)
Inductive item := ILine (l : line) | ITable (id : nat) (b : rect).
Definition items (b : block) : list item := match b with BText _ ls => map ILine ls | BTable k r => [ITable k r] end.
Definition all_items (bs : list block) : list item := flat_map items bs.
(** Every item with the box of its block. *)
Definition placed (bs : list block) : list (rect * item) := flat_map (fun b => map (pair (blk_bbox b)) (items b)) bs.
(** A table takes an item: its block lies in the table, or it is a line of a block the table
    meets and (rounded) 90% of it lie in the table. *)
Definition takes (t : rect) (p : rect * item) : bool :=
  coversb t (fst p) ||
  match snd p with
  | ILine l => qlt 0 (shared t (fst p)) && qle ((895 # 1000) * area (ln_bbox l)) (shared (ln_bbox l) t)
  | ITable _ _ => false
  end.
(** The table an item goes to: the first that takes it. *)
Fixpoint home (tables : list rect) (p : rect * item) : option nat :=
  match tables with
  | [] => None
  | t :: ts => if takes t p then Some 0%nat else option_map S (home ts p)
  end.
Definition goes (tables : list rect) (d : option nat) (p : rect * item) : bool :=
  match home tables p, d with Some i, Some j => Nat.eqb i j | None, None => true | _, _ => false end.

(** Boxes as extracted from a page: positive extent, one decimal; characters within their
    span, spans within their line, lines within their block. *)
Definition box (r : rect) : Prop := proper r /\ rect_decimal r.
Definition nested_span (s : span) : Prop := box (span_bbox s) /\
  match s with SText t => forall c, In c (ts_chars t) -> box (ch_bbox c) /\ covers (ts_bbox t) (ch_bbox c) | SImage _ _ => True end.
Definition nested_line (l : line) : Prop := box (ln_bbox l) /\ forall s, In s (ln_spans l) -> nested_span s /\ covers (ln_bbox l) (span_bbox s).
Definition nested_block (b : block) : Prop := box (blk_bbox b) /\ forall l, In l (blk_lines b) -> nested_line l /\ covers (blk_bbox b) (ln_bbox l).

(** Box of a glyph, and when it belongs to a cell: at least half of a character (three quarters
    of an image), or of the cell if that is smaller, is common. *)
Definition glyph_box (g : glyph) : rect := match g with GChar c _ => ch_bbox c | GImage _ b => b end.
Definition glyph_share (g : glyph) : Q := match g with GChar _ _ => 1 # 2 | GImage _ _ => 3 # 4 end.
Definition belongs (c : rect) (g : glyph * list style) : bool :=
  qle (glyph_share (fst g) * qmin (area (glyph_box (fst g))) (area c)) (shared (glyph_box (fst g)) c).
(** What a reader finds in a list of blocks. *)
Definition line_glyphs (ls : list line) : list (glyph * list style) := flat_map (fun l => styled (ln_spans l)) ls.
Definition block_glyphs (bs : list block) : list (glyph * list style) := flat_map (fun b => line_glyphs (blk_lines b)) bs.
(** A block that the cell takes as a whole: more than 94.5% of it lie in the cell, and it
    is not longer than the longer side of the cell (+1). *)
Definition almost_inside (c b : rect) : bool :=
  qlt ((945 # 1000) * area b) (shared c b) &&
  (if qle (ry1 c - ry0 c) (rx1 c - rx0 c) then qle (rx1 b - rx0 b) (rx1 c - rx0 c + 1) else qle (ry1 b - ry0 b) (ry1 c - ry0 c + 1)).
(** Boxes with a common point (possibly only on the edge). *)
Definition meets (a b : rect) : bool := qle (rx0 a) (rx1 b) && qle (rx0 b) (rx1 a) && qle (ry0 a) (ry1 b) && qle (ry0 b) (ry1 a).
