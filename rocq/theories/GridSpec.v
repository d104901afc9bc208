(** Vocabulary of C68: tables drawn with lines. *)
From Verif Require Export TableSpec.
From Verif Require LayoutModel.
Open Scope Q_scope.

(** A stroke drawn along an axis from (x0, y0) to (x1, y1), of width [w]. *)
Definition rule (w x0 y0 x1 y1 : Q) (s : shape) : Prop :=
  exists color ty uri, s = mkShape KStroke (rround (stroke_rect x0 y0 x1 y1 w)) color ty x0 y0 x1 y1 w uri.

(** A grid: x of the vertical and y of the horizontal lines, the width of the lines; horizontal line i
    is drawn from vertical line [g_left i] to [g_right i], vertical line j from horizontal line
    [g_top j] to [g_bottom j]. *)
Record grid := mkGrid { g_xs : list Q; g_ys : list Q; g_width : Q;
  g_left : nat -> nat; g_right : nat -> nat; g_top : nat -> nat; g_bottom : nat -> nat }.
Definition gx (g : grid) (j : nat) : Q := nth j (g_xs g) 0.
Definition gy (g : grid) (i : nat) : Q := nth i (g_ys g) 0.
Definition g_cols (g : grid) : nat := (length (g_xs g) - 1)%nat.
Definition g_rows (g : grid) : nat := (length (g_ys g) - 1)%nat.

(** At least one row and column, lines more than [d] apart, a closed frame around. *)
Definition grid_ok (d : Q) (g : grid) : Prop :=
  (1 <= g_cols g)%nat /\ (1 <= g_rows g)%nat /\ 0 < g_width g /\
  (forall j, (j < g_cols g)%nat -> gx g j + d < gx g (S j)) /\ (forall i, (i < g_rows g)%nat -> gy g i + d < gy g (S i)) /\
  (forall i, (i <= g_rows g)%nat -> (g_left g i < g_right g i)%nat /\ (g_right g i <= g_cols g)%nat) /\
  (forall j, (j <= g_cols g)%nat -> (g_top g j < g_bottom g j)%nat /\ (g_bottom g j <= g_rows g)%nat) /\
  g_left g 0 = O /\ g_right g 0 = g_cols g /\ g_left g (g_rows g) = O /\ g_right g (g_rows g) = g_cols g /\
  g_top g 0 = O /\ g_bottom g 0 = g_rows g /\ g_top g (g_cols g) = O /\ g_bottom g (g_cols g) = g_rows g.
(** The drawn line number i (j). *)
Definition h_rule (g : grid) (i : nat) (s : shape) : Prop := rule (g_width g) (gx g (g_left g i)) (gy g i) (gx g (g_right g i)) (gy g i) s.
Definition v_rule (g : grid) (j : nat) (s : shape) : Prop := rule (g_width g) (gx g j) (gy g (g_top g j)) (gx g j) (gy g (g_bottom g j)) s.
(** The strokes are the lines of the grid, one each, in any order. *)
Definition drawn_grid (g : grid) (strokes : list shape) : Prop :=
  exists hs vs, Permutation strokes (hs ++ vs) /\ length hs = length (g_ys g) /\ length vs = length (g_xs g) /\
    (forall i s, nth_error hs i = Some s -> h_rule g i s) /\ (forall j s, nth_error vs j = Some s -> v_rule g j s).

(** The line on the left (top) of the place in row i, column j is drawn along that place. *)
Definition has_left (g : grid) (i j : nat) : Prop := (g_top g j <= i < g_bottom g j)%nat.
Definition has_top (g : grid) (i j : nat) : Prop := (g_left g i <= j < g_right g i)%nat.
(** A cell starts at (i, j) and extends over m rows and n columns, up to the next lines drawn. *)
Definition cell_extent (g : grid) (i j m n : nat) : Prop :=
  run_length (fun k => has_top g k j) (g_rows g) i m /\ run_length (fun k => has_left g i k) (g_cols g) j n.
Definition place (g : grid) (i j m n : nat) : rect := rround (mkRect (gx g j) (gy g i) (gx g (j + n)) (gy g (i + m))).
(** Rows of cells as drawn. *)
Definition rows_as_drawn (g : grid) (rows : list (list (option bcell))) : Prop :=
  length rows = g_rows g /\
  forall i r, nth_error rows i = Some r -> length r = g_cols g /\
    forall j o, nth_error r j = Some o -> exists m n, cell_extent g i j m n /\
      match o with
      | None => m = O \/ n = O
      | Some b => (0 < m)%nat /\ (0 < n)%nat /\ bc_bbox b = place g i j m n /\ bc_merged b = (m, n)
      end.
(** Every row has a cell of its own. *)
Definition rows_start (g : grid) : Prop := forall i, (i < g_rows g)%nat -> exists j, (j < g_cols g)%nat /\ has_left g i j /\ has_top g i j.
(** All four sides of the cell are drawn along their whole length. *)
Definition sides_drawn (g : grid) (i j m n : nat) : Prop :=
  (forall k, (j <= k < j + n)%nat -> has_top g i k /\ has_top g (i + m) k) /\ (forall k, (i <= k < i + m)%nat -> has_left g k j /\ has_left g k (j + n)).
(** Borders of the cells whose sides are drawn: width and colours (top, right, bottom, left) of these lines. *)
Definition borders_as_drawn (g : grid) (strokes : list shape) (rows : list (list (option bcell))) : Prop :=
  forall i j r b m n, nth_error rows i = Some r -> nth_error r j = Some (Some b) -> bc_merged b = (m, n) -> sides_drawn g i j m n ->
    bc_widths b = (g_width g, g_width g, g_width g, g_width g) /\
    exists tp rg bt lf, In tp strokes /\ In rg strokes /\ In bt strokes /\ In lf strokes /\
      h_rule g i tp /\ v_rule g (j + n) rg /\ h_rule g (i + m) bt /\ v_rule g j lf /\ bc_colors b = (sh_color tp, sh_color rg, sh_color bt, sh_color lf).
(** The lines cut the frame into rectangles: [r i j] is the one with the place in row i, column j. *)
Definition tiles (g : grid) (r : nat -> nat -> region) : Prop :=
  partition (g_rows g) (g_cols g) r /\
  forall i j, (i < g_rows g)%nat -> (j < g_cols g)%nat -> (has_left g i j <-> reg_left (r i j) = j) /\ (has_top g i j <-> reg_top (r i j) = i).
(** All horizontal lines start at the left side of the frame; each vertical line meets one of them. *)
Definition rooted (g : grid) : Prop :=
  (forall i, (i <= g_rows g)%nat -> g_left g i = O) /\
  (forall j, (j <= g_cols g)%nat -> exists i, (i <= g_rows g)%nat /\ (g_top g j <= i <= g_bottom g j)%nat /\ (j <= g_right g i)%nat).
(** The frame. *)
Definition frame_box (g : grid) : rect := rround (mkRect (gx g 0) (gy g 0) (gx g (g_cols g)) (gy g (g_rows g))).
(** The table with this box, its rows as high as the lines are apart (rounded), as many cells each as there are columns. *)
Definition frame_table (g : grid) : LayoutModel.tab :=
  LayoutModel.mkTab (frame_box g) (map (fun i => (round1 (gy g (S i)) - round1 (gy g i), g_cols g)) (seq 0 (g_rows g))) true.
(** The frame with the width of its lines; the inside of a cell between its borders. *)
Definition ink_box (g : grid) : rect :=
  let h := g_width g / 2 in rround (mkRect (gx g 0 - h) (gy g 0 - h) (gx g (g_cols g) + h) (gy g (g_rows g) + h)).
Definition inside_of (g : grid) (b : bcell) : rect :=
  let h := g_width g / 2 in rround (mkRect (rx0 (bc_bbox b) + h) (ry0 (bc_bbox b) + h) (rx1 (bc_bbox b) - h) (ry1 (bc_bbox b) - h)).
(** The first of the fills within the frame that fills the cell. *)
Definition shaded_by (g : grid) (b : bcell) (f : shape) : Prop := Rect.covers (ink_box g) (sh_bbox f) /\ contains (sh_bbox f) (inside_of g b) (9 # 10) = true.
