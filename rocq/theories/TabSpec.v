(** Vocabulary of C76: a page with a ruled table and text in its cells, above and below it. *)
From Verif Require Export WholeSpec GridSpec.
From Verif Require Import AssignSpec.
From Coq Require Import Permutation.
From Verif Require TableSpec ShapeModel WordModel WordSpec TreeModel TreeSpec.
Open Scope Q_scope.

(** The paragraphs in the cells of a table, cell by cell, row by row: [cells i j] are those of the cell that starts in row i, column j. *)
Definition in_grid (g : grid) (cells : nat -> nat -> list CleanModel.tblock) : list CleanModel.tblock :=
  flat_map (fun i => flat_map (cells i) (seq 0 (g_cols g))) (seq 0 (g_rows g)).
(** [b] lies in the cell [c], more than [m] / 2 away from its left and its right side. *)
Definition well_inside (m : Q) (c b : rect) : Prop := Rect.covers c b /\ rx0 c + m * (1 # 2) < rx0 b /\ rx1 b + m * (1 # 2) < rx1 c.
(** Paragraphs above and below the frame and in the cells of the grid, in each of these places beneath each other. *)
Definition table_texts (m : Q) (g : grid) (r : nat -> nat -> TableSpec.region) (above : list CleanModel.tblock) (cells : nat -> nat -> list CleanModel.tblock) (below : list CleanModel.tblock) : Prop :=
  Forall paragraph (above ++ in_grid g cells ++ below) /\ ForallOrdPairs other_block (above ++ in_grid g cells ++ below) /\
  top_down (map ln_bbox (lines_in above)) /\ top_down (map ln_bbox (lines_in below)) /\ (forall i j, top_down (map ln_bbox (lines_in (cells i j)))) /\
  (forall t, In t above -> ry1 (CleanModel.b_bbox t) < ry0 (frame_box g)) /\ (forall t, In t below -> ry1 (frame_box g) < ry0 (CleanModel.b_bbox t)) /\
  (forall i j t, (i < g_rows g)%nat -> (j < g_cols g)%nat -> In t (cells i j) -> (exists k n, r i j = (i, j, k, n) /\ well_inside m (place g i j k n) (CleanModel.b_bbox t)) /\
    forall l s, In l (CleanModel.b_lines t) -> In s (ln_spans l) -> proper (span_bbox s)).
(** Lines wide enough for the gap by which pictures may lie on text. *)
Definition wide_lines (gap : Q) (ts : list CleanModel.tblock) : Prop := 0 <= gap /\ forall l, In l (lines_in ts) -> 2 * gap <= rx1 (ln_bbox l) - rx0 (ln_bbox l).
(** A page with a ruled table on it: the strokes of the page are the lines of the grid [g], which cut its frame into the cells [r], not
    touching the text; its blocks of text and pictures, without redundant blanks, are those above and below the frame and in the cells. *)
Definition table_page (gap m : Q) (p : rawpage) (g : grid) (r : nat -> nat -> TableSpec.region) (above : list CleanModel.tblock) (cells : nat -> nat -> list CleanModel.tblock) (below : list CleanModel.tblock) : Prop :=
  proper (page_box p) /\ (forall b, In b (r_blocks p) -> proper (CleanModel.b_bbox b) /\ to_keep (page_box p) b /\ (CleanModel.b_img b = true -> wrapped_image b /\ wide_lines gap (above ++ in_grid g cells ++ below))) /\
  Permutation (map CleanModel.block_strip (r_blocks p)) (above ++ in_grid g cells ++ below) /\ table_texts m g r above cells below /\
  drawn_grid g (r_shapes p) /\ rooted g /\ tiles g r /\
  forall s, In s (r_shapes p) -> Rect.covers (page_box p) (sh_bbox s) /\ forall l, In l (lines_in (above ++ in_grid g cells ++ below)) -> apart (sh_bbox s) (ln_bbox l).
(** The table lies across the middle of [area] (else the page may be taken for one of two columns, C55). *)
Definition across_middle (area : rect) (g : grid) : Prop := gx g 0 + g_width g <= TableSpec.center area <= gx g (g_cols g).
(** Rows of text that go through several cells do not lie almost in one of them (C66_once_refuted). *)
Definition sharing (g : grid) (r : nat -> nat -> TableSpec.region) (bs : list CleanModel.tblock) : Prop :=
  forall b i j k n, In b bs -> (i < g_rows g)%nat -> (j < g_cols g)%nat -> r i j = (i, j, k, n) ->
    Rect.covers (place g i j k n) (CleanModel.b_bbox b) \/ almost_inside (place g i j k n) (CleanModel.b_bbox b) = false.
(** Settings and distances: [d] is less than the distance of any two lines. *)
Definition table_settings (pm : params) (d : Q) (g : grid) : Prop :=
  1 # 1000000 < p_line_overlap pm /\ 0 < p_float_layout pm /\ 0 < p_connected pm /\ 0 <= p_clearance pm /\ 0 <= p_border_width pm /\ 1 # 2 <= p_shape_merging pm /\ 0 <= p_line_merging pm /\
  p_clearance pm + 1 <= d /\ p_shape_min pm <= d /\ 7 <= d /\ g_width g + 1 <= d /\ g_width g + 2 * p_connected pm + (1 # 10) <= d /\ 1 # 10 < g_width g /\ grid_ok d g.
(** A border of a Word cell like the line [s] of width [w]: widths in eighths of a point. *)
Definition border_of (w : Q) (s : ShapeModel.shape) (b : WordModel.border) : Prop := exists e, b = Some (e, ShapeModel.sh_color s) /\ e == 8 * w.
(** The paragraphs [ts] as entries of a Word body: their characters, pictures and formats. *)
Definition entries (ts : list CleanModel.tblock) : list (option (list (glyph * list TextModel.style))) := map (fun t => Some (line_glyphs (CleanModel.b_lines t))) ts.
(** The Word table [t] shows the grid [g] with the cells [r], drawn by [strokes]: the same rectangles, each with the lines on its sides as
    borders, as wide as it was, with the paragraphs of the cell. *)
Definition table_shown (g : grid) (r : nat -> nat -> TableSpec.region) (strokes : list ShapeModel.shape) (cells : nat -> nat -> list CleanModel.tblock) (t : list (list (WordModel.tc TreeModel.ditem))) : Prop :=
  List.length t = g_rows g /\
  forall p q i j m n, (p < g_rows g)%nat -> (q < g_cols g)%nat -> r p q = (i, j, m, n) ->
    WordSpec.shown_at t p q = Some (i, j) /\
    exists c, WordSpec.over t i j = Some (j, c) /\ WordModel.t_span c = n /\
      WordModel.pr_width (WordModel.t_pr c) = Some (rx1 (place g i j m n) - rx0 (place g i j m n)) /\
      (exists tp rg bt lf, In tp strokes /\ In rg strokes /\ In bt strokes /\ In lf strokes /\
        h_rule g i tp /\ v_rule g (j + n) rg /\ h_rule g (i + m) bt /\ v_rule g j lf /\
        border_of (g_width g) tp (WordModel.pr_top (WordModel.t_pr c)) /\ border_of (g_width g) rg (WordModel.pr_end (WordModel.t_pr c)) /\
        border_of (g_width g) bt (WordModel.pr_bottom (WordModel.t_pr c)) /\ border_of (g_width g) lf (WordModel.pr_start (WordModel.t_pr c))) /\
      flat_map TreeSpec.entry (WordModel.t_body c) = entries (cells i j).
(** Heights of the rows: the distances of the lines (rounded); the last row of a table at the end of the page is 1 pt lower. *)
Definition row_heights (g : grid) (last : bool) (hs : list Z) : Prop :=
  List.length hs = g_rows g /\
  forall i h, nth_error hs i = Some h -> h = WordModel.pt (let y := round1 (gy g (S i)) - round1 (gy g i) in if last && Nat.eqb (S i) (g_rows g) then y - 1 else y).
