(** Model of pdf2docx/table/TableStructure.py (CellStructure, TableStructure), of the
    table built from it (TableBlock, Row) and of TablesConstructor.page_layout_table. *)
From Verif Require Export ShapeModel.
Open Scope Q_scope.

(* ------------------------------------------------------------------ *)
(** * Dictionaries of strokes: insertion order, keys compared by value *)
Definition dict := list (Q * list shape).
Definition keys (d : dict) : list Q := map fst d.
(** [d[k] = v]. *)
Fixpoint dset (k : Q) (v : list shape) (d : dict) : dict :=
  match d with
  | [] => [(k, v)]
  | (k', v') :: t => if qeq k' k then (k', v) :: t else (k', v') :: dset k v t
  end.
(** [d.pop(k)] for a present key. *)
Fixpoint ddel (k : Q) (d : dict) : dict :=
  match d with
  | [] => []
  | (k', v') :: t => if qeq k' k then t else (k', v') :: ddel k t
  end.
(** [d[k]]; None: KeyError. *)
Fixpoint dget (k : Q) (d : dict) : option (list shape) :=
  match d with
  | [] => None
  | (k', v') :: t => if qeq k' k then Some v' else dget k t
  end.

(* ------------------------------------------------------------------ *)
(** * Grouping of strokes (TableStructure.py:326-401) *)
(** Strokes of a row (h) or column: coordinate, start and end. *)
Definition s_at (h : bool) (s : shape) : Q := if h then sh_y0 s else sh_x0 s.
Definition s_from (h : bool) (s : shape) : Q := if h then sh_x0 s else sh_y0 s.
Definition s_to (h : bool) (s : shape) : Q := if h then sh_x1 s else sh_y1 s.
(** TableStructure.py:360-365: the first key within the clearance. *)
Fixpoint near_key (c y : Q) (d : dict) : option (Q * list shape) :=
  match d with
  | [] => None
  | (k, v) :: t => if qlt c (qabs (y - k)) then near_key c y t else Some (k, v)
  end.
(** TableStructure.py:357-368 and 376-387; Collection.append drops shapes without box. *)
Definition put_stroke (h : bool) (c : Q) (d : dict) (s : shape) : dict :=
  let y := round1 (s_at h s) in
  match near_key c y d with
  | Some (k, v) => dset ((k + y) / 2) (v ++ if shape_bool s then [s] else []) (ddel k d)
  | None => dset y [s] d
  end.
(** The two branches of the loop, lines 355 and 374; the two dictionaries are filled
    independently. *)
Definition h_part (l : list shape) : list shape := filter horizontal l.
Definition v_part (l : list shape) : list shape := filter (fun s => negb (horizontal s) && vertical s) l.
Definition group_dir (h : bool) (c : Q) (l : list shape) : dict := fold_left (put_stroke h c) l [].
(** min and max over a non-empty list. *)
Definition list_min (l : list Q) : Q := match l with [] => 0 | x :: t => fold_left qmin t x end.
Definition list_max (l : list Q) : Q := match l with [] => 0 | x :: t => fold_left qmax t x end.
(** TableStructure.py:353, 370-372, 389-391, 397 (both parts non-empty). *)
Definition table_region (hs vs : list shape) : rect :=
  rround (mkRect (list_min (map sh_x0 hs)) (list_min (map sh_y0 vs)) (list_max (map sh_x1 hs)) (list_max (map sh_y1 vs))).

(* ------------------------------------------------------------------ *)
(** * Outer borders (TableStructure.py:458-525) *)
(** [h]: a top/bottom side (horizontal strokes); bbox entries by direction. *)
Definition b_at (h first : bool) (r : rect) : Q :=
  match h, first with true, true => ry0 r | true, false => ry1 r | false, true => rx0 r | false, false => rx1 r end.
Definition b_from (h : bool) (r : rect) : Q := if h then rx0 r else ry0 r.
Definition b_to (h : bool) (r : rect) : Q := if h then rx1 r else ry1 r.
Definition mk_side (h : bool) (at_ from to : Q) : rect := if h then mkRect from at_ to at_ else mkRect at_ from at_ to.
(** sort_in_line_order / sort_in_reading_order of shapes (horizontal direction). *)
Definition side_key (h : bool) (s : shape) : list Q :=
  let b := sh_bbox s in if h then [rx0 b; ry0 b; rx1 b] else [ry0 b; rx0 b; rx1 b].
Definition sort_side (h : bool) (l : list shape) : list shape := sort_key (side_key h) l.
(** [Stroke().copy().update_bbox(bbox)]. *)
Definition dummy (h : bool) (at_ from to : Q) : shape := stroke_update_bbox empty_stroke (mk_side h at_ from to).
(** TableStructure.py:503-517: the missing segments. *)
Fixpoint missing (h : bool) (at_ start end_ : Q) (l : list shape) : list shape :=
  let gap to := if qlt 1 (qabs (start - to)) then [dummy h at_ start to] else [] in
  match l with
  | [] => gap end_
  | s :: t => gap (b_from h (sh_bbox s)) ++ missing h at_ (b_to h (sh_bbox s)) end_ t
  end.
Definition check_outer (region : rect) (max_width : Q) (h first : bool) (d : dict) : dict :=
  let current := if first then list_min (keys d) else list_max (keys d) in
  let target := b_at h first region in
  let start := b_from h region in
  let end_ := b_to h region in
  match dget current d with
  | None => d
  | Some l =>
      let l := sort_side h l in
      let d := dset current l d in
      if qlt max_width (qabs (target - current))
      then dset target [dummy h target start end_] d
      else dset current (sort_side h (l ++ filter shape_bool (missing h target start end_ l))) d
  end.
(** TableStructure.py:326-401; None: no horizontal or no vertical strokes. *)
Definition group_h_v (c max_width : Q) (strokes : list shape) : option (dict * dict) :=
  let hs := h_part strokes in
  let vs := v_part strokes in
  match hs, vs with
  | [], _ | _, [] => None
  | _, _ =>
      let region := table_region hs vs in
      Some (check_outer region max_width true false (check_outer region max_width true true (group_dir true c hs)),
            check_outer region max_width false false (check_outer region max_width false true (group_dir false c vs)))
  end.

(* ------------------------------------------------------------------ *)
(** * Grid (TableStructure.py:404-420): the lattice of the sorted keys.  x_cols and y_rows
    (lines 212-237) read the same coordinates back from the cells. *)
Definition sorted_keys (d : dict) : list Q := sort_key (fun x => [x]) (keys d).
Fixpoint intervals (l : list Q) : list (Q * Q) :=
  match l with
  | a :: ((b :: _) as t) => (a, b) :: intervals t
  | _ => []
  end.

(* ------------------------------------------------------------------ *)
(** * Merged cells *)
(** TableStructure.py:557-578: one column (row) of borders; [h]: strokes are horizontal. *)
Fixpoint crossed (h : bool) (ref : Q) (l : list shape) : bool :=
  match l with
  | [] => false
  | s :: t =>
      if qlt (s_from h s) ref && qlt ref (s_to h s) then true
      else if qlt (s_to h s) ref then crossed h ref t
      else if qlt ref (s_from h s) then false
      else crossed h ref t
  end.
(** TableStructure.py:528-583. *)
Definition check_merged (h : bool) (ref : Q) (borders : list (list shape)) : list bool := map (crossed h ref) (removelast borders).
(** TableStructure.py:586-604 (the list is never empty here). *)
Fixpoint zeros (l : list bool) : nat := match l with false :: t => S (zeros t) | _ => O end.
Definition count_merged (l : list bool) : nat := match l with true :: t => S (zeros t) | _ => O end.
(** Lookup of every key; None: KeyError. *)
Fixpoint lookup_all (ks : list Q) (d : dict) : option (list (list shape)) :=
  match ks with
  | [] => Some []
  | k :: t => match dget k d, lookup_all t d with Some v, Some r => Some (v :: r) | _, _ => None end
  end.
Definition middle (p : Q * Q) : Q := (fst p + snd p) / 2.
(** TableStructure.py:423-441: status of row i at border j, of column j at border i. *)
Definition row_status (xs ys : list Q) (vb : list (list shape)) : list (list bool) := map (fun yy => check_merged false (middle yy) vb) (intervals ys).
Definition col_status (xs ys : list Q) (hb : list (list shape)) : list (list bool) := map (fun xx => check_merged true (middle xx) hb) (intervals xs).
Definition status_at (st : list (list bool)) (i j : nat) : list bool := skipn j (nth i st []).
(** CellStructure (TableStructure.py:17-42). *)
Record cell := mkCell { ce_rows : nat; ce_cols : nat; ce_bbox : rect;
                        ce_borders : option (shape * shape * shape * shape); ce_shading : option shape }.
Definition is_merged (c : cell) : bool := (ce_rows c =? 0)%nat || (ce_cols c =? 0)%nat.
(** TableStructure.py:443-455: cell (i, j); coordinates beyond the table do not occur
    (TableProof.merged_in_range). *)
Definition merge_cell (xs ys : list Q) (R C : list (list bool)) (i j : nat) : cell :=
  let n_col := count_merged (status_at R i j) in
  let n_row := count_merged (status_at C j i) in
  mkCell n_row n_col (mkRect (nth j xs 0) (nth i ys 0) (nth (j + n_col) xs 0) (nth (i + n_row) ys 0)) None None.

(* ------------------------------------------------------------------ *)
(** * Borders and shading of a cell *)
(** constants.py:10. *)
Definition MAJOR_DIST : Q := 5.
(** TableStructure.py:103-117: total length and the strokes that count. *)
Fixpoint border_scan (h : bool) (x0 x1 : Q) (l : list shape) : Q * list shape :=
  match l with
  | [] => (0, [])
  | s :: t =>
      if qle (s_to h s) x0 then border_scan h x0 x1 t
      else if qle x1 (s_from h s) then (0, [])
      else let dl := qmin x1 (s_to h s) - qmax x0 (s_from h s) in
           if qlt dl MAJOR_DIST then border_scan h x0 x1 t
           else let (L, r) := border_scan h x0 x1 t in (dl + L, s :: r)
  end.
(** TableStructure.py:86-126 [_get_border_stroke]; x1 <> x0 in a table. *)
Definition border_stroke (h : bool) (x0 x1 : Q) (l : list shape) : shape :=
  match l with
  | [] => empty_stroke
  | _ =>
      let (L, bs) := border_scan h x0 x1 l in
      if qlt (L / (x1 - x0)) FACTOR_MAJOR then empty_stroke
      else match bs with
           | [] => empty_stroke
           | s :: t => if forallb (fun u => Z.eqb (sh_color u) (sh_color s)) t then s else empty_stroke
           end
  end.
(** TableStructure.py:44-59 [parse_borders]: (top, bottom, left, right); None: KeyError. *)
Definition parse_borders (hd vd : dict) (b : rect) : option (shape * shape * shape * shape) :=
  match dget (ry0 b) hd, dget (ry1 b) hd, dget (rx0 b) vd, dget (rx1 b) vd with
  | Some t, Some m, Some l, Some r =>
      Some (border_stroke true (rx0 b) (rx1 b) t, border_stroke true (rx0 b) (rx1 b) m,
            border_stroke false (ry0 b) (ry1 b) l, border_stroke false (ry0 b) (ry1 b) r)
  | _, _, _, _ => None
  end.
(** constants.py:16. *)
Definition FACTOR_MOST : Q := 9 # 10.
(** TableStructure.py:62-84 [parse_shading]. *)
Definition parse_shading (fills : list shape) (b : rect) (bs : shape * shape * shape * shape) : option shape :=
  let '(tp, bt, lf, rg) := bs in
  let inner := rround (mkRect (rx0 b + sh_width lf / 2) (ry0 b + sh_width tp / 2) (rx1 b - sh_width rg / 2) (ry1 b - sh_width bt / 2)) in
  find (fun f => contains (sh_bbox f) inner FACTOR_MOST) fills.
(** TableStructure.py:239-259 for one cell. *)
Definition finish_cell (hd vd : dict) (fills : list shape) (c : cell) : option cell :=
  if is_merged c then Some c
  else match parse_borders hd vd (ce_bbox c) with
       | None => None
       | Some bs => Some (mkCell (ce_rows c) (ce_cols c) (ce_bbox c) (Some bs) (parse_shading fills (ce_bbox c) bs))
       end.
Fixpoint all_some {A} (l : list (option A)) : option (list A) :=
  match l with
  | [] => Some []
  | Some x :: t => match all_some t with Some r => Some (x :: r) | None => None end
  | None :: _ => None
  end.

(* ------------------------------------------------------------------ *)
(** * The whole structure (TableStructure.py:172-199, 239-259) *)
Record structure := mkStruct { st_h : dict; st_v : dict; st_xs : list Q; st_ys : list Q; st_cells : list (list cell) }.
Inductive parsed := NoTable | Failed | Parsed (st : structure).
Definition grid_cells (xs ys : list Q) (R C : list (list bool)) : list (list cell) :=
  map (fun i => map (merge_cell xs ys R C i) (seq 0 (length xs - 1))) (seq 0 (length ys - 1)).
(** No row: no table.  Rows without a column: [self.cells[0][-1]] raises IndexError
    (line 237). *)
Definition parse_structure (c max_width : Q) (strokes fills : list shape) : parsed :=
  match group_h_v c max_width strokes with
  | None => NoTable
  | Some (hd, vd) =>
      let xs := sorted_keys vd in
      let ys := sorted_keys hd in
      match ys with
      | [] | [_] => NoTable
      | _ =>
          match xs with
          | [] | [_] => Failed
          | _ =>
              match lookup_all xs vd, lookup_all ys hd with
              | Some vb, Some hb =>
                  let cells := grid_cells xs ys (row_status xs ys vb) (col_status xs ys hb) in
                  match all_some (map (fun r => all_some (map (finish_cell hd vd fills) r)) cells) with
                  | Some cs => Parsed (mkStruct hd vd xs ys cs)
                  | None => Failed
                  end
              | _, _ => Failed
              end
          end
      end
  end.

(* ------------------------------------------------------------------ *)
(** * The table block (TableStructure.py:262-308) *)
(** A cell of the block: Cell.py:13-27; [None]: merged, Cell() without box. *)
Record bcell := mkBcell { bc_bbox : rect; bc_bg : option Z; bc_colors : Z * Z * Z * Z; bc_widths : Q * Q * Q * Q; bc_merged : nat * nat }.
Record brow := mkBrow { br_height : Q; br_cells : list (option bcell) }.
Definition make_cell (c : cell) : option bcell :=
  if is_merged c then None
  else match ce_borders c with
       | None => None
       | Some (tp, bt, lf, rg) =>
           Some (mkBcell (rround (ce_bbox c)) (option_map sh_color (ce_shading c))
                   (sh_color tp, sh_color rg, sh_color bt, sh_color lf)
                   (sh_width tp, sh_width rg, sh_width bt, sh_width lf) (ce_rows c, ce_cols c))
       end.
(** Cells.append and Element.union_bbox: the box of the row. *)
Definition row_bbox (cs : list (option bcell)) : rect :=
  fold_left (fun r c => union_bbox r match c with Some c => bc_bbox c | None => rect0 end) cs rect0.
Definition row_truth (r : brow) : bool := rect_bool (row_bbox (br_cells r)).
Definition make_rows (st : structure) : list brow :=
  map (fun p => mkBrow (snd (fst p) - fst (fst p)) (map make_cell (snd p))) (combine (intervals (st_ys st)) (st_cells st)).
(** Rows.append (Collection.py:160-172) drops a row without box. *)
Definition to_table (st : structure) : list brow := filter row_truth (make_rows st).
(** python-docx: [document.add_table(num_rows, num_cols)] and [table.cell(i, j)] succeed
    inside the table only (TableBlock.make_docx, Cell._set_style, Cell.make_docx): the
    cell reaches its last position. *)
Definition cell_fits (nrows ncols i j : nat) (c : option bcell) : bool :=
  match c with
  | None => true
  | Some b => (i + fst (bc_merged b) <=? nrows)%nat && (j + snd (bc_merged b) <=? ncols)%nat
  end.
Fixpoint rows_fit (nrows ncols i : nat) (rows : list brow) : bool :=
  match rows with
  | [] => true
  | r :: t => forallb (fun p => cell_fits nrows ncols i (fst p) (snd p)) (combine (seq 0 (length (br_cells r))) (br_cells r)) && rows_fit nrows ncols (S i) t
  end.
Definition docx_ok (rows : list brow) : bool :=
  rows_fit (length rows) (match rows with r :: _ => length (br_cells r) | [] => 0%nat end) 0 rows.

(* ------------------------------------------------------------------ *)
(** * Page layout table (TablesConstructor.py:42-99) *)
(** Collection.py:32-38 [bbox]. *)
Definition boxes_bbox (l : list rect) : rect := rround (fold_left runion l rect0).
(** TablesConstructor.py:66-72; [elems]: boxes of the lines of all blocks and of the shapes. *)
Definition page_center (page : rect) : Q := (rx0 page + rx1 page) / 2.
Definition column_elements (page : rect) (elems : list rect) : list rect := filter (fun e => qlt (rx1 e) (page_center page) || qlt (page_center page) (rx0 e)) elems.
Definition span_elements (page : rect) (elems : list rect) : list rect := filter (fun e => qle (page_center page) (rx1 e) && qle (rx0 e) (page_center page)) elems.
(** TablesConstructor.py:78-86. *)
Definition side_stroke (x0 y0 x1 y1 : Q) : shape := stroke_update_bbox empty_stroke (mkRect x0 y0 x1 y1).
Definition layout_strokes (page u : rect) : list shape :=
  let m0 := (rx0 page + rx0 u) / 2 in
  let m1 := (rx1 page + rx1 u) / 2 in
  let n0 := ry0 u - MAJOR_DIST in
  let n1 := ry1 u + MAJOR_DIST in
  let X := page_center page in
  [side_stroke m0 n0 m1 n0; side_stroke m0 n1 m1 n1; side_stroke m0 n0 m0 n1; side_stroke m1 n0 m1 n1; side_stroke X n0 X n1].
(** TablesConstructor.py:61-88: None: no layout table; the default settings of TableStructure.__init__. *)
Definition page_layout (page : rect) (elems : list rect) : option parsed :=
  let u := boxes_bbox (column_elements page elems) in
  if forallb (fun e => qlt (ry1 e) (ry0 u) || qlt (ry1 u) (ry0 e)) (span_elements page elems)
  then Some (parse_structure 2 6 (layout_strokes page u) []) else None.
