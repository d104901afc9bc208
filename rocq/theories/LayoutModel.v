(** Model of the recursive layout parsing: Layout.parse (page/Layout.py:68-84, 109-136),
    TablesConstructor.page_layout_table, lattice_tables, stream_tables
    (table/TablesConstructor.py:42-256), Blocks.assign_to_tables (page/Blocks.py:203-226),
    Shapes.assign_to_tables (shape/Shapes.py:210-247), Cell.assign_shapes (table/Cell.py:132-141),
    TableBlock.parse (table/TableBlock.py:128-137), composed of the models of the single steps
    (TableModel, BorderModel, AssignModel, FlowModel, ShapeModel).

    Shapes are objects whose type is set during parsing and which are shared by the collections of
    a layout and by several cells: they live in a list, collections hold positions in it, and a stroke or
    fill at position k carries its identity [S k] in [sh_uri] (otherwise used for links only).
    Simplifications: spacing (Layout.py:148-154), which neither moves nor changes contents and shapes, is
    computed from the result (WholeModel); blocks are those after clean_up, where no block is of image
    type any more; the cells of a table are one list, row by row. *)
From Verif Require Export BorderModel AssignModel FlowModel.
Open Scope Q_scope.

(** [Raise]: an exception; [Deep]: deeper than the given number of nested layouts. *)
Inductive res (A : Type) := Ok (a : A) | Raise | Deep.
Arguments Ok {A} a. Arguments Raise {A}. Arguments Deep {A}.
Definition bind {A B} (r : res A) (f : A -> res B) : res B := match r with Ok a => f a | Raise => Raise | Deep => Deep end.

(** All shapes of the page and the number of text blocks created so far. *)
Record world := mkW { w_shapes : list shape; w_next : nat }.
Definition shape_at (w : world) (k : nat) : shape := nth k (w_shapes w) empty_stroke.
Definition shapes_at (w : world) (l : list nat) : list shape := map (shape_at w) l.
(** [stroke.type = ...] on the shape with identity [i]. *)
Definition retype (t : rtype) (i : nat) (w : world) : world :=
  match i with O => w | S k => mkW (upd_at k (fun s => BorderModel.set_type s t) (w_shapes w)) (w_next w) end.
Definition retype_all (t : rtype) (l : list shape) (w : world) : world := fold_left (fun w s => retype t (sh_uri s) w) l w.

(** [shape.type = ...] on the shape at position [k]. *)
Definition put_shape (k : nat) (s : shape) (w : world) : world := mkW (upd_at k (fun _ => s) (w_shapes w)) (w_next w).

(** Shapes of a layout: all, potential borders, potential shadings, potential underlines and
    strikes, potential highlights (Shapes.py:18-25). *)
Record lshapes := mkLS { ls_all : list nat; ls_strokes : list nat; ls_fills : list nat; ls_lines : list nat; ls_marks : list nat }.
Definition no_shapes : lshapes := mkLS [] [] [] [] [].
(** A table: its box, the heights of its rows and their numbers of cells; is it one with explicit borders (common/Block.py:62-68, 86-92)? *)
Record tab := mkTab { tab_box :> rect; tab_rows : list (Q * nat); tab_lattice : bool }.
(** A text block, or a table with its cells: the cell as parsed ([None]: merged), its shapes, its blocks. *)
Inductive lblock :=
| LText (t : tblock)
| LTable (bb : tab) (cells : list (option bcell * lshapes * list lblock)).
Definition lcell := (option bcell * lshapes * list lblock)%type.
Definition lc_info (c : lcell) : option bcell := fst (fst c).
Definition lc_shapes (c : lcell) : lshapes := snd (fst c).
Definition lc_blocks (c : lcell) : list lblock := snd c.
Definition info_box (i : option bcell) : rect := match i with Some b => bc_bbox b | None => rect0 end.
Definition is_ltable (b : lblock) : bool := match b with LTable _ _ => true | LText _ => false end.

(* ---------------- to and from the models of the single steps ---------------- *)
(** Tables are numbered in the order of the blocks. *)
Fixpoint flat (k : nat) (bs : list lblock) : list fblock :=
  match bs with
  | [] => []
  | LText t :: r => FText t :: flat k r
  | LTable bb _ :: r => FTable k bb :: flat (S k) r
  end.
Definition tabs (bs : list lblock) : list lblock := filter is_ltable bs.
Definition back (ts : list lblock) (b : fblock) : list lblock :=
  match b with FText t => [LText t] | FTable k _ => match nth_error ts k with Some t => [t] | None => [] end end.
Definition to_block (b : fblock) : block := match b with FText t => BText (b_bbox t) (b_lines t) | FTable k bb => BTable k bb end.
Definition of_block (b : block) : fblock := match b with BText r ls => FText (mkBlk false r ls) | BTable k bb => FTable k bb end.
Definition resort (bs : list lblock) : list lblock := flat_map (back (tabs bs)) (sort_fblocks (flat 0 bs)).

Section Parse.
(** Iteration orders of Python sets; identities of new text blocks. *)
Variable order : list nat -> list nat.
Variable rorder : list (Q * Q) -> list (Q * Q).
Variable ids : nat -> nat.
(** Settings (Page.py:64-88). *)
Record settings := mkSet { connected : Q; clearance : Q; max_width : Q; flow_tol : Q; separate : Q }.
Variable set_ : settings.

(* ---------------- new tables ---------------- *)
(** A parsed table and its cells. *)
Definition new_table := (tab * list (option bcell))%type.
Definition new_boxes (ts : list new_table) : list rect := map (fun t => tab_box (fst t)) ts.
(** Rows.append, Element.union_bbox. *)
Definition rows_box (rows : list brow) : rect := fold_left (fun r row => union_bbox r (row_bbox (br_cells row))) rows rect0.
Definition table_of_rows (lattice : bool) (rows : list brow) : new_table :=
  (mkTab (rows_box rows) (map (fun r => (br_height r, List.length (br_cells r))) rows) lattice, flat_map br_cells rows).
(** TableStructure.py:311-326 [_finalize_strokes_fills]. *)
Definition dict_shapes (d : dict) : list shape := flat_map snd d.
Definition shadings (st : structure) : list shape :=
  flat_map (fun r => flat_map (fun c => match ce_shading c with Some s => [s] | None => [] end) r) (st_cells st).
Definition mark (st : structure) (w : world) : world :=
  retype_all R_SHADING (shadings st) (retype_all R_BORDER (dict_shapes (st_v st)) (retype_all R_BORDER (dict_shapes (st_h st)) w)).
(** TableStructure.py:262-308; blocks collections drop a table without a box. *)
Definition finish (lattice : bool) (w : world) (p : parsed) (accept : list brow -> bool) : res (world * list new_table) :=
  match p with
  | Failed => Raise
  | NoTable => Ok (w, [])
  | Parsed st =>
      let rows := to_table st in
      if rect_bool (rows_box rows) then Ok (mark st w, if accept rows then [table_of_rows lattice rows] else []) else Ok (w, [])
  end.

(** TablesConstructor.py:113-131: of groups in one another the largest stays. *)
Definition largest {A} (box : A -> rect) (g : list A) : list A :=
  match rev (sort_key (fun a => [area (box a)]) g) with [] => [] | a :: _ => [a] end.
Definition remove_overlap {A} (box : A -> rect) (l : list A) : list A :=
  match group (fun a b => rcontains (box a) (box b) || rcontains (box b) (box a)) order l with
  | None => []
  | Some gs => flat_map (largest box) gs
  end.
Definition group_box (w : world) (g : list nat) : rect := boxes_bbox (map sh_bbox (shapes_at w g)).
(** TablesConstructor.py:148-157. *)
Definition lattice_one (fills : list nat) (w : world) (g : list nat) : res (world * list new_table) :=
  let fs := filter (fun s => rcontains (group_box w g) (sh_bbox s)) (shapes_at w fills) in
  finish true w (parse_structure (clearance set_) (max_width set_) (shapes_at w g) fs) (fun _ => true).
Fixpoint each_group {A} (f : world -> A -> res (world * list new_table)) (w : world) (gs : list A) : res (world * list new_table) :=
  match gs with
  | [] => Ok (w, [])
  | g :: t => bind (f w g) (fun p => bind (each_group f (fst p) t) (fun q => Ok (fst q, snd p ++ snd q)))
  end.
(** TablesConstructor.py:98-157. *)
Definition lattice (w : world) (ss : lshapes) : res (world * list new_table) :=
  match ls_all ss with
  | [] => Ok (w, [])
  | _ =>
      match group_by_connectivity order (connected set_) (connected set_) (map sh_bbox (shapes_at w (ls_strokes ss))) with
      | None => Raise
      | Some gs => each_group (lattice_one (ls_fills ss)) w (remove_overlap (group_box w) (map (map (fun i => nth i (ls_strokes ss) O)) gs))
      end
  end.

(** TablesConstructor.py:250-252; [any(row[0].bg_color ...)]: black is 0. *)
Definition has_bg (row : brow) : bool :=
  match br_cells row with Some c :: _ => match bc_bg c with Some z => negb (Z.eqb z 0) | None => false end | _ => false end.
Definition num_cols (rows : list brow) : nat := match rows with [] => O | r :: _ => List.length (br_cells r) end.
Definition accept_stream (rows : list brow) : bool := Nat.leb 2 (num_cols rows) || existsb has_bg rows.
(** TablesConstructor.py:221-254 for one group of lines; a fill without area raises ZeroDivisionError
    (Collection.py:266). *)
Definition stream_one (box : rect) (boxes : list rect) (ss : lshapes) (w : world) (g : list line) : res (world * list new_table) :=
  match g with
  | [] => Ok (w, [])
  | _ =>
      let lines := map ln_elem g in
      let ib := tight_box lines in
      let ob := outer_box box boxes ib in
      let fills := shapes_at w (ls_fills ss) in
      if existsb (fun s => qeq (area (sh_bbox s)) 0) fills then Raise
      else
      let '(st, es) := stream_borders order rorder lines ib ob (explicit_strokes ob (shapes_at w (ls_strokes ss))) fills in
      let w1 := retype_all R_BORDER (filter (fun s => rtype_eqb (sh_type s) R_BORDER) es) w in
      match filter shape_bool (flat_map (border_to_stroke st) st) with
      | [] => Ok (w1, [])
      | strokes => finish false w1 (parse_structure (clearance set_) (max_width set_) (sort_key shape_key strokes) fills) accept_stream
      end
  end.
Definition shade_of (s : shape) : shade := mkShade (sh_bbox s) (determined s) (sh_color s).
(** TablesConstructor.py:161-254. *)
Definition stream (w : world) (box : rect) (bs : list lblock) (ss : lshapes) : res (world * list new_table) :=
  match collect_stream_lines order (map shade_of (shapes_at w (ls_fills ss))) (flow_tol set_) (separate set_) (flat 0 bs) with
  | None => Raise
  | Some gs => each_group (stream_one box (map f_box (flat 0 bs)) ss) w gs
  end.
(** TablesConstructor.py:61-92. *)
Definition lines_of (b : lblock) : list line := match b with LText t => b_lines t | LTable _ _ => [] end.
Definition layout_table (w : world) (box : rect) (bs : list lblock) (ss : lshapes) : res (world * list new_table) :=
  match page_layout box (filter rect_bool (map ln_bbox (flat_map lines_of bs) ++ map sh_bbox (shapes_at w (ls_all ss)))) with
  | None => Ok (w, [])
  | Some p => match finish false w p (fun _ => true) with Ok (_, ts) => Ok (w, ts) | r => r end
  end.

(* ---------------- contents of the new tables ---------------- *)
(** Lines.append: lines cut out of others get the new block as their origin. *)
Fixpoint tag (k : nat) (bs : list fblock) : list fblock :=
  match bs with
  | [] => []
  | FText t :: r => FText (mkBlk (b_img t) (b_bbox t) (map (set_pid (ids k)) (b_lines t))) :: tag (S k) r
  | b :: r => b :: tag (S k) r
  end.
Fixpoint fill_cells (k : nat) (old : list lblock) (cells : list (option bcell)) (contents : list (list block)) : list lcell * nat :=
  match cells with
  | [] => ([], k)
  | c :: t =>
      let bs := hd [] contents in
      let '(r, k') := fill_cells (k + List.length bs) old t (tl contents) in
      ((c, no_shapes, flat_map (back old) (tag k (map of_block bs))) :: r, k')
  end.
Fixpoint fill_tables (k : nat) (old : list lblock) (ts : list new_table) (contents : list (list (list block))) : list lblock * nat :=
  match ts with
  | [] => ([], k)
  | t :: r =>
      let '(cs, k1) := fill_cells k old (snd t) (hd [] contents) in
      let '(l, k2) := fill_tables k1 old r (tl contents) in (LTable (fst t) cs :: l, k2)
  end.
(** Shapes.py:157-207 for the blocks of a cell. *)
Definition shape_blocks (bs : list lblock) : list ShapeModel.tblock :=
  flat_map (fun b => match b with LText t => [ShapeModel.mkTblock (b_bbox t) (map ln_bbox (b_lines t))] | LTable _ _ => [] end) bs.
Definition in_group (f : groups -> list shape) (bs : list lblock) (s : shape) : bool :=
  match f (classify (shape_blocks bs) (mkGroups [] [] [] []) s) with [] => false | _ => true end.
Definition categorise (w : world) (bs : list lblock) (l : list nat) : lshapes :=
  mkLS l (filter (fun k => in_group g_table_strokes bs (shape_at w k)) l) (filter (fun k => in_group g_table_fillings bs (shape_at w k)) l)
    (filter (fun k => in_group g_underlines bs (shape_at w k)) l) (filter (fun k => in_group g_highlights bs (shape_at w k)) l).
(** Cell.py:132-141, TableBlock.py:116-125: the shapes [l] of the table. *)
Definition cell_shapes (w : world) (l : list nat) (c : lcell) : lcell :=
  if rect_bool (info_box (lc_info c)) then
    let bs := resort (lc_blocks c) in
    (lc_info c, categorise w bs (filter (fun k => rect_bool (rinter (info_box (lc_info c)) (sh_bbox (shape_at w k))) && shape_bool (shape_at w k)) l), bs)
  else c.
Definition table_shapes (w : world) (boxes : list rect) (l : list nat) (j : nat) (b : lblock) : lblock :=
  match filter (fun k => match shape_target boxes (shape_at w k) with Some i => Nat.eqb i j | None => false end) l with
  | [] => b
  | mine => match b with LTable bb cs => LTable bb (map (cell_shapes w mine) cs) | LText _ => b end
  end.
(** Blocks.py:203-226, Shapes.py:210-247. *)
Definition place_tables (w : world) (bs : list lblock) (ss : lshapes) (ts : list new_table) : res (world * list lblock * lshapes) :=
  match ts with
  | [] => Ok (w, bs, ss)
  | _ =>
      let old := tabs bs in
      match assign_to_tables (List.length old) (map to_block (flat 0 bs)) (map (fun t : new_table => mkTbl (fst t) (map info_box (snd t))) ts) with
      | None => Raise
      | Some (contents, rest) =>
          let '(new, k) := fill_tables (w_next w) old ts contents in
          let boxes := new_boxes ts in
          let new' := map (fun p => table_shapes w boxes (ls_all ss) (fst p) (snd p)) (combine (seq 0 (List.length new)) new) in
          let kept := filter (fun i => match shape_target boxes (shape_at w i) with None => true | Some _ => false end) (ls_all ss) in
          Ok (mkW (w_shapes w) k,
              flat_map (back (old ++ new')) (sort_fblocks (map of_block rest)),
              mkLS (sort_key (fun i => shape_key (shape_at w i)) kept) (ls_strokes ss) (ls_fills ss) (ls_lines ss) (ls_marks ss))
      end
  end.

(* ---------------- text format ---------------- *)
(** TextBlock.py:126-148: the shapes [ks] one after the other. *)
Fixpoint format_lines (w : world) (bb : rect) (ls : list line) (ks : list nat) : world * list line :=
  match ks with
  | [] => (w, ls)
  | k :: t =>
      let s := shape_at w k in
      let (ls1, s1) := if applicable bb s then lines_format ls s else (ls, s) in
      format_lines (put_shape k s1 w) bb ls1 t
  end.
(** Blocks.py:490-499. *)
Fixpoint format_blocks (w : world) (ks : list nat) (bs : list lblock) : world * list lblock :=
  match bs with
  | [] => (w, [])
  | LText t :: r =>
      let (w1, ls) := format_lines w (b_bbox t) (b_lines t) ks in
      let (w2, r2) := format_blocks w1 ks r in (w2, LText (mkBlk (b_img t) (b_bbox t) ls) :: r2)
  | b :: r => let (w1, r1) := format_blocks w ks r in (w1, b :: r1)
  end.
(** Layout.py:142-145; links are those among the shapes that are left (Shapes.py:71-76). *)
Definition style_shapes (w : world) (ss : lshapes) : list nat :=
  ls_lines ss ++ ls_marks ss ++ filter (fun k => kind_eqb (sh_kind (shape_at w k)) KLink) (ls_all ss).
Definition text_format (w : world) (ss : lshapes) (bs : list lblock) : world * list lblock := format_blocks w (style_shapes w ss) bs.

(* ---------------- one layout ---------------- *)
(** Layout.py:74-80, 109-136. *)
Definition level (top : bool) (w : world) (box : rect) (bs : list lblock) (ss : lshapes) : res (world * list lblock) :=
  bind (if top then bind (layout_table w box bs ss) (fun p => place_tables (fst p) bs ss (snd p)) else Ok (w, bs, ss)) (fun s0 =>
  let '(w0, bs0, ss0) := s0 in
  bind (bind (lattice w0 ss0) (fun p => place_tables (fst p) bs0 ss0 (snd p))) (fun s1 =>
  let '(w1, bs1, ss1) := s1 in
  bind (bind (stream w1 box bs1 ss1) (fun p => place_tables (fst p) bs1 ss1 (snd p))) (fun s2 =>
  let '(w2, bs2, ss2) := s2 in
  match split_back order (fun k => ids (w_next w2 + k)) (flow_tol set_) (separate set_) (flat 0 bs2) with
  | None => Raise
  | Some out => Ok (text_format (mkW (w_shapes w2) (w_next w2 + List.length out)) ss2 (flat_map (back (tabs bs2)) out))
  end))).
(** Cell.py:37-42 [working_bbox]. *)
Definition working_box (c : bcell) : rect :=
  let '(t, r, b, l) := bc_widths c in
  mkRect (rx0 (bc_bbox c) + l / 2) (ry0 (bc_bbox c) + t / 2) (rx1 (bc_bbox c) - r / 2) (ry1 (bc_bbox c) - b / 2).
(** TableBlock.py:128-137, Layout.py:83-84; [rec] is Layout.parse of a cell. *)
Section Rec.
Variable rec : world -> rect -> list lblock -> lshapes -> res (world * list lblock).
Fixpoint parse_cells (w : world) (cs : list lcell) : res (world * list lcell) :=
  match cs with
  | [] => Ok (w, [])
  | c :: t =>
      bind (match lc_info c with
            | Some i => if rect_bool (bc_bbox i) then bind (rec w (working_box i) (lc_blocks c) (lc_shapes c)) (fun p => Ok (fst p, (lc_info c, lc_shapes c, snd p))) else Ok (w, c)
            | None => Ok (w, c)
            end)
           (fun p => bind (parse_cells (fst p) t) (fun q => Ok (fst q, snd p :: snd q)))
  end.
Fixpoint parse_tables (w : world) (bs : list lblock) : res (world * list lblock) :=
  match bs with
  | [] => Ok (w, [])
  | b :: t =>
      bind (match b with LText _ => Ok (w, b) | LTable bb cs => bind (parse_cells w cs) (fun p => Ok (fst p, LTable bb (snd p))) end)
           (fun p => bind (parse_tables (fst p) t) (fun q => Ok (fst q, snd p :: snd q)))
  end.
End Rec.
(** Layout.py:68-84; [fuel] bounds the number of nested layouts (Python: the depth of recursion). *)
Fixpoint layout_parse (fuel : nat) (top : bool) (w : world) (box : rect) (bs : list lblock) (ss : lshapes) : res (world * list lblock) :=
  match fuel with
  | O => Deep
  | S f => bind (level top w box bs ss) (fun p => parse_tables (layout_parse f false) (fst p) (snd p))
  end.
End Parse.
