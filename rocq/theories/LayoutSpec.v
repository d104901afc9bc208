(** Vocabulary for the recursive layout parsing (C66). *)
From Verif Require Export AssignSpec FlowSpec LayoutModel.
From Verif Require Export GeomSpec.
From Coq Require Import Sorting.Sorted.
Open Scope Q_scope.

(** Everything a reader finds in blocks: characters and pictures with their formats, in tables
    at any depth too. *)
Fixpoint block_text (b : lblock) : list (glyph * list style) :=
  match b with
  | LText t => line_glyphs (b_lines t)
  | LTable _ cs => flat_map (fun c : option bcell * lshapes * list lblock => flat_map block_text (snd c)) cs
  end.
Definition text_of (bs : list lblock) : list (glyph * list style) := flat_map block_text bs.

(** The cell is one of a table among the blocks, or in a cell of one, at any depth. *)
Inductive cell_of : list lblock -> lcell -> Prop :=
| cell_here bs bb cs c : In (LTable bb cs) bs -> In c cs -> cell_of bs c
| cell_below bs bb cs c c' : In (LTable bb cs) bs -> In c cs -> cell_of (lc_blocks c) c' -> cell_of bs c'.

(** A shape before and after parsing: at most its meaning changes. *)
Definition meanings : list rtype := [R_BORDER; R_SHADING; R_UNDERLINE; R_STRIKE; R_HIGHLIGHT; R_UNDEFINED].
Definition same_but_meaning (s t : shape) : Prop := t = s \/ exists k, In k meanings /\ t = BorderModel.set_type s k.
(** A format given to text by a shape: colour of the shape, an underline, strike or highlight, or the
    link of a link. *)
Definition format_of (s : shape) (f : style) : Prop :=
  st_color f = sh_color s /\ (In (st_type f) [R_UNDERLINE; R_STRIKE; R_HIGHLIGHT] \/ (st_type f = R_HYPERLINK /\ st_uri f = sh_uri s)).
(** The character or picture with its formats, some of them given by shapes of the list. *)
Definition from_page (text : list (glyph * list style)) (shapes : list shape) (g : glyph * list style) : Prop :=
  exists old new, In (fst g, old) text /\ snd g = old ++ new /\ forall f, In f new -> exists s, In s shapes /\ format_of s f.
(** The shapes of a layout, each at its position. *)
Definition members (ss : lshapes) : list nat := ls_all ss ++ ls_lines ss ++ ls_marks ss.
Definition plain_blocks (bs : list lblock) : Prop := forall b, In b bs -> is_ltable b = false.

(** One of two boxes lies in the other. *)
Definition one_in_other (a b : rect) : Prop := Rect.covers a b \/ Rect.covers b a.

(** A block as an element of its layout; the blocks of a layout are in reading order. *)
Definition lb_elem (b : lblock) : elem := match b with LText t => b_elem t | LTable bb _ => mkElem 0 bb LEFT_RIGHT end.
Definition in_reading_order (bs : list lblock) : Prop :=
  StronglySorted (fun a b => reading_before (is_horizontal (coll_dir (map lb_elem bs))) (lb_elem a) (lb_elem b)) bs.
(** The layouts of a parsed page: its blocks, and those of each cell with a box, at any depth. *)
Inductive layout_of : list lblock -> list lblock -> Prop :=
| layout_here bs : layout_of bs bs
| layout_below bs bb cs i ss bs1 bs2 : In (LTable bb cs) bs -> In (Some i, ss, bs1) cs -> rect_bool (bc_bbox i) = true -> layout_of bs1 bs2 -> layout_of bs bs2.

(** A text block and the tables found: it lies in a table, and there in one cell, or in no cell almost
    as a whole but each of its characters and pictures in one; or it lies outside of all tables. *)
Definition cell_boxes (t : new_table) : list rect := filter rect_bool (map info_box (snd t)).
Definition as_block (b : CleanModel.tblock) : block := BText (b_bbox b) (b_lines b).
Definition in_cells (ts : list new_table) (b : CleanModel.tblock) : Prop :=
  exists t, In t ts /\ Rect.covers (fst t) (b_bbox b) /\
    ((exists c, In c (cell_boxes t) /\ Rect.covers c (b_bbox b)) \/
     ((forall c, In c (cell_boxes t) -> almost_inside c (b_bbox b) = false) /\
      forall g, In g (line_glyphs (b_lines b)) -> exists c, In c (cell_boxes t) /\ Rect.covers c (glyph_box (fst g)))).
Definition outside (ts : list new_table) (b : CleanModel.tblock) : Prop := forall t, In t ts -> AssignSpec.apart (fst t) (b_bbox b).
(** Tables and the cells of each table do not overlap. *)
Definition tidy (ts : list new_table) : Prop :=
  Forall proper (new_boxes ts) /\ ForallOrdPairs AssignSpec.apart (new_boxes ts) /\
  forall t, In t ts -> Forall proper (cell_boxes t) /\ ForallOrdPairs AssignSpec.apart (cell_boxes t).
