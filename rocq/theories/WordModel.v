(** Model of writing a table to Word: TableBlock.make_docx (table/TableBlock.py:155-166), Row.make_docx
    (table/Row.py:58-77), Cell.make_docx and _set_style (table/Cell.py:144-229), docx.set_cell_border,
    set_cell_shading, set_cell_margins, set_vertical_cell_direction (common/docx.py:322-426), on top of
    the parts of python-docx they use: Table.cell (docx/table.py), CT_Tc.merge with _span_dimensions,
    _grow_to, _span_to_width, _swallow_next_tc, _move_content_to, top, bottom, CT_Row.tc_at_grid_col
    (docx/oxml/table.py).

    A w:tc element is a value in the list of its row; as an object it is named by its row and the grid
    column where it starts.  [None] is an exception.  The contents of a cell are block items of any type
    [X]; what the writer of the blocks of a cell makes is given (see TreeModel for the whole).
    Simplifications: widths that python-docx itself gives to cells (all cells are fixed afterwards,
    Cell.py:169-170) and the left indent (docx.py:307-319) are left out. *)
From Verif Require Export TableModel.
Open Scope nat_scope.

Definition obind {A B} (o : option A) (f : A -> option B) : option B := match o with Some a => f a | None => None end.

(** w:vMerge: absent, restart, continue. *)
Inductive vmerge := Single | Restart | Continue.
(** w:tcPr: borders (eighths of a point, colour), shadings, the number of w:tcMar and of w:textDirection
    elements, width in points. *)
Definition border := option (Q * Z).
Record tcpr := mkPr { pr_top : border; pr_end : border; pr_bottom : border; pr_start : border;
                      pr_shd : list Z; pr_mar : nat; pr_vert : nat; pr_width : option Q }.
Definition pr0 : tcpr := mkPr None None None None [] 0 0 None.

Section Table.
Variable X : Type.
(** A new, empty paragraph; is the item a paragraph without runs? *)
Variable newp : X.
Variable noruns : X -> bool.

Record tc := mkTc { t_span : nat; t_vm : vmerge; t_pr : tcpr; t_body : list X }.
Definition grid := list (list tc).
Definition fresh : tc := mkTc 1 Single pr0 [newp].
Definition with_span (n : nat) (t : tc) : tc := mkTc n (t_vm t) (t_pr t) (t_body t).
Definition with_vm (v : vmerge) (t : tc) : tc := mkTc (t_span t) v (t_pr t) (t_body t).
Definition with_pr (f : tcpr -> tcpr) (t : tc) : tc := mkTc (t_span t) (t_vm t) (f (t_pr t)) (t_body t).
Definition with_body (b : list X) (t : tc) : tc := mkTc (t_span t) (t_vm t) (t_pr t) b.

(** BlockItemContainer.add_table / CT_Tbl.new_tbl: [rows] times [cols] cells with an empty paragraph. *)
Definition new_grid (rows cols : nat) : grid := repeat (repeat fresh cols) rows.

(* ---------------- cells as objects ---------------- *)
(** CT_Row.tc_at_grid_col: the cell starting in grid column [c], with the cells before and after it. *)
Fixpoint split_col (c : nat) (row : list tc) : option (list tc * tc * list tc) :=
  match row with
  | [] => None
  | t :: r =>
      match c with
      | O => Some ([], t, r)
      | _ => if c <? t_span t then None
             else match split_col (c - t_span t) r with Some (a, x, b) => Some (t :: a, x, b) | None => None end
      end
  end.
Definition tc_at (rows : grid) (r c : nat) : option tc :=
  obind (nth_error rows r) (fun row => match split_col c row with Some (_, t, _) => Some t | None => None end).
(** A change of the object named (r, c); an object removed from the table is changed without effect. *)
Definition upd_row (c : nat) (f : tc -> tc) (row : list tc) : list tc :=
  match split_col c row with Some (a, t, b) => a ++ f t :: b | None => row end.
Fixpoint upd_tc (r c : nat) (f : tc -> tc) (rows : grid) : grid :=
  match rows with
  | [] => []
  | row :: t => match r with O => upd_row c f row :: t | S r' => row :: upd_tc r' c f t end
  end.

(** Table._cells: the cell object at each grid position, row by row. *)
Definition addr := (nat * nat)%type.
Definition back_at (k : nat) (l : list addr) : option addr := if List.length l <? k then None else nth_error l (List.length l - k).
Fixpoint push_cells (ncols : nat) (v : vmerge) (a : addr) (first : bool) (n : nat) (cells : list addr) : option (list addr) :=
  match n with
  | O => Some cells
  | S n' =>
      obind (match v with Continue => back_at ncols cells | _ => if first then Some a else back_at 1 cells end)
            (fun x => push_cells ncols v a false n' (cells ++ [x]))
  end.
Fixpoint row_cells (ncols r g : nat) (row : list tc) (cells : list addr) : option (list addr) :=
  match row with
  | [] => Some cells
  | t :: rest => obind (push_cells ncols (t_vm t) (r, g) true (t_span t) cells) (fun cs => row_cells ncols r (g + t_span t) rest cs)
  end.
Fixpoint table_cells (ncols r : nat) (rows : grid) (cells : list addr) : option (list addr) :=
  match rows with
  | [] => Some cells
  | row :: rest => obind (row_cells ncols r 0 row cells) (fun cs => table_cells ncols (S r) rest cs)
  end.
(** Table.cell. *)
Definition table_cell (ncols : nat) (rows : grid) (i j : nat) : option addr :=
  obind (table_cells ncols 0 rows []) (fun cs => nth_error cs (j + i * ncols)).

(* ---------------- merging ---------------- *)
(** CT_Tc.top, .bottom ([rows] from the row of the cell downwards; the number of rows), .right. *)
Fixpoint top_of (rows : grid) (r c : nat) : option nat :=
  obind (tc_at rows r c) (fun t => match t_vm t with Continue => match r with O => None | S r' => top_of rows r' c end | _ => Some r end).
Fixpoint height_of (rows : grid) (c : nat) : option nat :=
  match rows with
  | [] => None
  | row :: below =>
      obind (split_col c row) (fun '(_, t, _) =>
        match t_vm t with
        | Single => Some 1
        | _ => match below with
               | [] => Some 1
               | row2 :: _ => obind (split_col c row2) (fun '(_, t2, _) =>
                   match t_vm t2 with Continue => option_map S (height_of below c) | _ => Some 1 end)
               end
        end)
  end.
(** CT_Tc._is_empty (a cell holds at least one item), _remove_trailing_empty_p, _move_content_to: the
    contents left and the contents of the top cell. *)
Definition is_empty (b : list X) : bool := match b with [x] => noruns x | _ => false end.
Definition trim (b : list X) : list X := match rev b with x :: r => if noruns x then rev r else b | [] => b end.
Definition move (b acc : list X) : list X * list X := if is_empty b then (b, acc) else ([newp], trim acc ++ b).
(** CT_Tc._span_to_width and _swallow_next_tc: the cell, the cells after it, contents of the top cell. *)
Fixpoint swallow (width : nat) (self : tc) (rest : list tc) (acc : list X) : option (tc * list tc * list X) :=
  if width <=? t_span self then Some (self, rest, acc)
  else match rest with
       | [] => None
       | n :: t => if width <? t_span self + t_span n then None
                   else swallow width (with_span (t_span self + t_span n) self) t (snd (move (t_body n) acc))
       end.
(** CT_Tc._grow_to below the top cell. *)
Fixpoint grow_below (left width h : nat) (rows : grid) (acc : list X) : option (grid * list X) :=
  match h with
  | O => Some (rows, acc)
  | S h' =>
      match rows with
      | [] => None
      | row :: below =>
          obind (split_col left row) (fun '(a, self, rest) =>
            let '(b, acc1) := move (t_body self) acc in
            obind (swallow width (with_body b self) rest acc1) (fun '(self1, rest1, acc2) =>
              obind (grow_below left width h' below acc2) (fun '(below1, acc3) =>
                Some ((a ++ with_vm Continue self1 :: rest1) :: below1, acc3))))
      end
  end.
(** CT_Tc.merge from its span on: the top row first. *)
Fixpoint grow (top left width height : nat) (rows : grid) : option grid :=
  match rows with
  | [] => None
  | row :: below =>
      match top with
      | S top' => option_map (cons row) (grow top' left width height below)
      | O =>
          obind (split_col left row) (fun '(a, self, rest) =>
            obind (swallow width self rest (t_body self)) (fun '(self1, rest1, acc) =>
              obind (grow_below left width (height - 1) below acc) (fun '(below1, acc1) =>
                Some ((a ++ with_body acc1 (with_vm (if height =? 1 then Single else Restart) self1) :: rest1) :: below1))))
      end
  end.
(** CT_Tc._span_dimensions, raising on inverted-L and tee-shaped spans; CT_Tc.merge. *)
Definition tc_box (rows : grid) (x : addr) : option (nat * nat * nat * nat) :=
  obind (tc_at rows (fst x) (snd x)) (fun t =>
    obind (top_of rows (fst x) (snd x)) (fun tp =>
      obind (height_of (skipn (fst x) rows) (snd x)) (fun h => Some (tp, snd x, fst x + h, snd x + t_span t)))).
Definition merge (rows : grid) (x y : addr) : option grid :=
  obind (tc_box rows x) (fun '(t1, l1, b1, r1) =>
    obind (tc_box rows y) (fun '(t2, l2, b2, r2) =>
      let inverted := ((t1 =? t2) && negb (b1 =? b2)) || ((l1 =? l2) && negb (r1 =? r2)) in
      let tee (s1 e1 s2 e2 : nat) := if s1 <? s2 then e2 <? e1 else (s2 <? s1) && (e1 <? e2) in
      if inverted || tee t1 b1 t2 b2 || tee l1 r1 l2 r2 then None
      else let top := Nat.min t1 t2 in let left := Nat.min l1 l2 in
           grow top left (Nat.max r1 r2 - left) (Nat.max b1 b2 - top) rows)).

(* ---------------- style ---------------- *)
(** Cell.py:198-207: a border of width 0 is left out. *)
Definition edge (w : Q) (c : Z) : border := if qeq w 0 then None else Some (8 * w, c)%Q.
(** docx.py:365-410 [set_cell_border]: given edges replace those of the cell. *)
Definition over (n o : border) : border := match n with Some _ => n | None => o end.
Definition set_border (tp en bt st : border) (p : tcpr) : tcpr :=
  mkPr (over tp (pr_top p)) (over en (pr_end p)) (over bt (pr_bottom p)) (over st (pr_start p)) (pr_shd p) (pr_mar p) (pr_vert p) (pr_width p).
(** docx.py:351-362, 322-348, 413-426; Cell.py:170. *)
Definition add_shading (c : Z) (p : tcpr) : tcpr := mkPr (pr_top p) (pr_end p) (pr_bottom p) (pr_start p) (pr_shd p ++ [c]) (pr_mar p) (pr_vert p) (pr_width p).
Definition add_margin (p : tcpr) : tcpr := mkPr (pr_top p) (pr_end p) (pr_bottom p) (pr_start p) (pr_shd p) (S (pr_mar p)) (pr_vert p) (pr_width p).
Definition add_vertical (p : tcpr) : tcpr := mkPr (pr_top p) (pr_end p) (pr_bottom p) (pr_start p) (pr_shd p) (pr_mar p) (S (pr_vert p)) (pr_width p).
Definition set_width (w : Q) (p : tcpr) : tcpr := mkPr (pr_top p) (pr_end p) (pr_bottom p) (pr_start p) (pr_shd p) (pr_mar p) (pr_vert p) (Some w).

(** A cell to write: as parsed ([None]: part of a merged cell, Cell() without box); is its text vertical;
    what the writer makes of its blocks ([None]: it has none). *)
Record wcell := mkW { wc_info : option bcell; wc_vert : bool; wc_fill : option (list X) }.
Definition wc_merged (c : wcell) : nat * nat := match wc_info c with Some b => bc_merged b | None => (1, 1) end.
Definition wc_edges (c : wcell) : border * border * border * border :=
  match wc_info c with
  | Some b => let '(w1, w2, w3, w4) := bc_widths b in let '(c1, c2, c3, c4) := bc_colors b in (edge w1 c1, edge w2 c2, edge w3 c3, edge w4 c4)
  | None => (None, None, None, None)
  end.
(** Cell.py:210-212: positions of the region, row by row. *)
Definition positions (i j nr nc : nat) : list (nat * nat) := flat_map (fun m => map (fun n => (m, n)) (seq j nc)) (seq i nr).
Fixpoint border_all (ncols : nat) (f : tcpr -> tcpr) (l : list (nat * nat)) (rows : grid) : option grid :=
  match l with
  | [] => Some rows
  | (m, n) :: t => obind (table_cell ncols rows m n) (fun a => border_all ncols f t (upd_tc (fst a) (snd a) (with_pr f) rows))
  end.
(** Cell.py:181-229 [_set_style]; the keys (top, end, bottom, start) go with (top, right, bottom, left). *)
Definition set_style (ncols i j : nat) (c : wcell) (rows : grid) : option grid :=
  obind (table_cell ncols rows i j) (fun a =>
    let '(tp, en, bt, st) := wc_edges c in
    obind (border_all ncols (set_border tp en bt st) (positions i j (fst (wc_merged c)) (snd (wc_merged c))) rows) (fun rows1 =>
      let rows2 := match wc_info c with
                   | Some b => match bc_bg b with Some z => upd_tc (fst a) (snd a) (with_pr (add_shading z)) rows1 | None => rows1 end
                   | None => rows1
                   end in
      let rows3 := upd_tc (fst a) (snd a) (with_pr add_margin) rows2 in
      Some (if wc_vert c then upd_tc (fst a) (snd a) (with_pr add_vertical) rows3 else rows3))).

(** Cell.py:144-178 [make_docx]. *)
Definition cell_make_docx (ncols i j : nat) (c : wcell) (rows : grid) : option grid :=
  obind (set_style ncols i j c rows) (fun rows1 =>
    match wc_info c with
    | None => Some rows1
    | Some b =>
        let '(nr, nc) := bc_merged b in
        obind (table_cell ncols rows1 i j) (fun a =>
          obind (if nr * nc =? 1 then Some rows1
                 else obind (table_cell ncols rows1 (i + nr - 1) (j + nc - 1)) (fun z => merge rows1 a z)) (fun rows2 =>
            let rows3 := upd_tc (fst a) (snd a) (with_pr (set_width (rx1 (bc_bbox b) - rx0 (bc_bbox b))%Q)) rows2 in
            Some (match wc_fill c with Some body => upd_tc (fst a) (snd a) (with_body body) rows3 | None => rows3 end)))
    end).

(** python-docx Pt: whole English Metric Units; a row height must not be negative. *)
Definition pt (x : Q) : Z := qtrunc (12700 * x).
(** Row.py:58-77 [make_docx]: [range(len(table.columns))]. *)
Fixpoint row_loop (ncols i j n : nat) (cells : list wcell) (rows : grid) : option grid :=
  match n with
  | O => Some rows
  | S n' => match cells with
            | [] => None
            | c :: t => obind (cell_make_docx ncols i j c rows) (row_loop ncols i (S j) n' t)
            end
  end.
(** TableBlock.py:155-166. *)
Fixpoint rows_loop (ncols i : nat) (src : list (Q * list wcell)) (rows : grid) : option grid :=
  match src with
  | [] => Some rows
  | (h, cells) :: t =>
      if (pt h <? 0)%Z then None
      else obind (row_loop ncols i 0 ncols cells rows) (rows_loop ncols (S i) t)
  end.
(** Blocks.py:517-520 and TableBlock.num_rows, num_cols: heights of the rows and the cells. *)
Definition word_table (src : list (Q * list wcell)) : option (list Z * grid) :=
  let ncols := match src with [] => 0 | (_, cells) :: _ => List.length cells end in
  option_map (fun g => (map (fun r => pt (fst r)) src, g)) (rows_loop ncols 0 src (new_grid (List.length src) ncols)).
End Table.
Arguments mkTc {X}. Arguments t_span {X}. Arguments t_vm {X}. Arguments t_pr {X}. Arguments t_body {X}.
Arguments mkW {X}. Arguments wc_info {X}. Arguments wc_vert {X}. Arguments wc_fill {X}. Arguments wc_merged {X}. Arguments wc_edges {X}.
Arguments split_col {X}. Arguments tc_at {X}. Arguments upd_row {X}. Arguments upd_tc {X}. Arguments fresh {X}. Arguments new_grid {X}.
Arguments with_span {X}. Arguments with_vm {X}. Arguments with_pr {X}. Arguments with_body {X}.
Arguments row_cells {X}. Arguments table_cells {X}. Arguments table_cell {X}. Arguments top_of {X}. Arguments height_of {X}.
Arguments is_empty {X}. Arguments trim {X}. Arguments move {X}. Arguments swallow {X}. Arguments grow_below {X}. Arguments grow {X}.
Arguments tc_box {X}. Arguments merge {X}. Arguments border_all {X}. Arguments set_style {X}. Arguments cell_make_docx {X}.
Arguments row_loop {X}. Arguments rows_loop {X}. Arguments word_table {X}.
