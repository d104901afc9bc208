(** Model of the conversion of a page as a whole: Page.parse after the raw page was read (page/Page.py:143-156, 219-272),
    Layout.clean_up (page/Layout.py:89-110), Layout.parse (66-83) with the spacing of each layout (Blocks.parse_spacing,
    page/Blocks.py:323-413, called at Layout.py:150-155), to the blocks Page.make_docx writes (TreeModel),
    composed of the models of the steps (CleanModel, ShapeModel, PageModel, LayoutModel, SpacingModel, ParaModel).
    The spacing of a layout depends on its blocks only, and nothing else depends on it; so it is computed
    here from the parsed layout (LayoutModel), layout by layout.
    Simplifications: those of these models; a cell with an all-zero box counts as merged (Cell.py:155: neither is written);
    the left indent of tables (TableBlock.py:162) is left out. *)
From Verif Require Export LayoutModel SpacingModel TreeModel.
From Verif Require ShapeModel CleanModel PageModel.
Open Scope Q_scope.

(** Page.py:61-82: the parameters used in parsing. *)
Record params := mkParams {
  p_connected : Q; p_border_width : Q; p_clearance : Q; p_image_gap : Q; p_float_layout : Q; p_factor_top : Q; p_factor_bottom : Q;
  p_shape_merging : Q; p_shape_min : Q; p_line_overlap : Q; p_line_free : Q; p_line_merging : Q; p_line_separate : Q;
  p_left_aligned : Q; p_right_aligned : Q; p_center_aligned : Q }.
Definition default_params : params := mkParams (1 # 2) 6 2 5 (1 # 10) (1 # 2) (1 # 2) (1 # 2) 2 (9 # 10) (1 # 10) 2 5 1 1 2.
(** Layout.py:127-137. *)
Definition layout_settings (p : params) : settings := mkSet (p_connected p) (p_clearance p) (p_border_width p) (p_float_layout p) (p_line_separate p).
(** Layout.py:150-155. *)
Definition text_thresholds (p : params) : thresholds := mkThr (p_line_separate p) (p_line_free p) (p_left_aligned p) (p_right_aligned p) (p_center_aligned p).

Section Whole.
(** Iteration order of Python sets; orders of the groups of strokes; identities of objects (LayoutModel). *)
Variable order : list nat -> list nat.
Variable rorder : list (Q * Q) -> list (Q * Q).
Variable ids : nat -> nat.
Variable pm : params.

(* ---------------- spacing ---------------- *)
(** Blocks.py:366 [block[0][0].border_width[0]]; a merged cell has no borders (Cell.py:20-24). *)
Definition top_border (cs : list lcell) : option Q :=
  match cs with [] => None | c :: _ => Some (match lc_info c with Some i => let '(t, _, _, _) := bc_widths i in t | None => 0 end) end.
Definition vblock_of (b : lblock) : vblock :=
  match b with
  | LText t => VText (CleanModel.b_bbox t) (CleanModel.b_lines t)
  | LTable tb cs => VTable tb (top_border cs) (map fst (tab_rows tb))
  end.
(** Cell.py:228, share.py:73-75. *)
Definition vertical_text (bs : list lblock) : bool := dir_eqb (coll_dir (map (fun b => mkElem 0 (v_box (vblock_of b)) (v_dir (vblock_of b))) bs)) BOTTOM_TOP.
(** The cells of a table row by row. *)
Fixpoint cut {A} (ns : list nat) (l : list A) : list (list A) := match ns with [] => [] | n :: t => firstn n l :: cut t (skipn n l) end.
(** Blocks.py:335-413; [fs]: what becomes of each block, given the layout box, its spaces and its row heights. *)
Definition space_all (container : rect) (vbs : list vblock) (fs : list (rect -> vspace -> list Q -> option sblock)) : option (list sblock) :=
  obind (parse_spacing container vbs) (fun vs =>
    all_some (map (fun p : (rect -> vspace -> list Q -> option sblock) * (vspace * list Q) => fst p container (fst (snd p)) (snd (snd p))) (combine fs (combine vs (final_heights vbs))))).
(** TextBlock.py:151-252 for a text block (new blocks have no spaces, Block.py:18-37); for a table its left side (Block.py:111-112; a table has no
    text direction of its own, hence LEFT_RIGHT) and its cells, each a layout in the box between the middles of its borders (Cell.py:37-42). *)
Fixpoint space_block (b : lblock) : rect -> vspace -> list Q -> option sblock :=
  match b with
  | LText t => fun container v _ =>
      let bb := CleanModel.b_bbox t in
      let ls := CleanModel.b_lines t in
      obind (parse_horizontal order bb container (text_thresholds pm) ls fresh_para) (fun p =>
        option_map (fun br => ST (mkSText bb p (v_before v) (v_after v) (v_line v) ls br))
                   (line_breaks (is_horizontal (ParaModel.block_dir ls)) bb p (p_line_free pm) ls))
  | LTable tb cs => fun container v hs =>
      option_map (fun cells => STable (mkTP (v_before v) (rx0 tb - rx0 container) (tab_lattice tb)) (combine hs (cut (map snd (tab_rows tb)) cells)))
        (all_some (map (fun c : option bcell * lshapes * list lblock =>
           match fst (fst c) with
           | Some i => if rect_bool (bc_bbox i)
                       then option_map (fun bs => (Some i, vertical_text (snd c), bs)) (space_all (working_box i) (map vblock_of (snd c)) (map space_block (snd c)))
                       else Some (None, false, [])
           | None => Some (None, false, [])
           end) cs))
  end.
Definition space_layout (container : rect) (bs : list lblock) : option (list sblock) := space_all container (map vblock_of bs) (map space_block bs).

(* ---------------- the page ---------------- *)
(** The raw page: size, blocks and shapes as loaded (Page.py:212-216, Blocks.py:94-130, Shapes.py:28-42). *)
Record rawpage := mkRaw { r_width : Q; r_height : Q; r_blocks : list CleanModel.tblock; r_shapes : list shape }.
Definition page_box (r : rawpage) : rect := mkRect 0 0 (r_width r) (r_height r).
(** The identity of strokes and fills: their position (LayoutModel). *)
Fixpoint name_shapes (k : nat) (l : list shape) : list shape :=
  match l with
  | [] => []
  | s :: t => (match sh_kind s with
               | KLink => s
               | _ => mkShape (sh_kind s) (sh_bbox s) (sh_color s) (sh_type s) (sh_x0 s) (sh_y0 s) (sh_x1 s) (sh_y1 s) (sh_width s) k
               end) :: name_shapes (S k) t
  end.
(** Layout.py:99-110, Shapes.py:173-174: cleaned blocks in reading order, cleaned shapes, the floating pictures. *)
Record cleaned := mkClean { c_floats : list nat; c_blocks : list CleanModel.tblock; c_shapes : list shape }.
Definition clean_page (r : rawpage) : option cleaned :=
  option_map (fun p => mkClean (flat_map (fun f => match f with Some (k, _) => [k] | None => [] end) (fst p)) (CleanModel.sort_blocks (snd p))
                               (name_shapes 1 (ShapeModel.clean_up (page_box r) (p_border_width pm) (p_shape_merging pm) (p_shape_min pm) (r_shapes r))))
             (CleanModel.clean_up order (page_box r) (p_image_gap pm) (p_line_overlap pm) (p_line_merging pm) (r_blocks r)).
(** Page.py:227, 244-272. *)
Definition page_margin (r : rawpage) (c : cleaned) : PageModel.margin :=
  PageModel.cal_margin (map CleanModel.b_elem (c_blocks c)) (map (fun s => mkElem 0 (sh_bbox s) LEFT_RIGHT) (c_shapes c)) (r_width r) (r_height r) (p_factor_top pm) (p_factor_bottom pm).
Definition page_shapes (c : cleaned) : lshapes := categorise (LayoutModel.mkW (c_shapes c) 0) (map LText (c_blocks c)) (seq 0 (List.length (c_shapes c))).
(** Page.py:197-205. *)
Definition page_section (r : rawpage) (m : PageModel.margin) : DocxModel.section :=
  DocxModel.mkSection (r_width r) (r_height r) [PageModel.m_left m; PageModel.m_right m; PageModel.m_top m; PageModel.m_bottom m].
(** Page.py:143-156: the page as it is written.  [fuel] bounds the depth of nested layouts. *)
Definition parse_page (fuel : nat) (r : rawpage) : res spage :=
  match clean_page r with
  | None => Raise
  | Some c =>
      let m := page_margin r c in
      let box := PageModel.working_bbox (r_width r) (r_height r) m in
      bind (layout_parse order rorder ids (layout_settings pm) fuel true (LayoutModel.mkW (c_shapes c) 0) box (map LText (c_blocks c)) (page_shapes c)) (fun p =>
        match space_layout box (snd p) with
        | None => Raise
        | Some bs => Ok (mkSPage (page_section r m) bs (c_floats c))
        end)
  end.
End Whole.
