(** Vocabulary of C70: the text, the structure and the regularity of nested tables. *)
From Verif Require Export TreeModel WordSpec AssignSpec.
From Verif Require LayoutModel.
From Verif Require Import ParaSpec.
From Verif Require DocxModel.
Open Scope nat_scope.

(** Characters and pictures with their formats, in the order of a Word body, into the cells of tables row by row. *)
Fixpoint ditem_text (d : ditem) : list (glyph * list style) :=
  match d with
  | DText w _ => styled (item_spans (wp_items w))
  | DOther _ _ => []
  | DTable _ _ g => flat_map (flat_map (fun t => flat_map ditem_text (t_body t))) g
  end.
(** The same in parsed blocks. *)
Fixpoint sblock_text (b : sblock) : list (glyph * list style) :=
  match b with
  | ST t => line_glyphs (st_lines t)
  | STable _ rows => flat_map (fun row : Q * list (option bcell * bool * list sblock) => flat_map (fun c : option bcell * bool * list sblock => flat_map sblock_text (snd c)) (snd row)) rows
  end.

(** The cells of a table divide its grid into the rectangles [r]. *)
Definition divides (nr nc : nat) (r : nat -> nat -> region) (rows : list (Q * list scell)) : Prop :=
  List.length rows = nr /\
  forall i h cells, nth_error rows i = Some (h, cells) -> List.length cells = nc /\
    forall j info v bs, nth_error cells j = Some (info, v, bs) ->
      match info with
      | Some b => r i j = (i, j, fst (bc_merged b), snd (bc_merged b))
      | None => (reg_top (r i j), reg_left (r i j)) <> (i, j) /\ v = false /\ bs = []
      end.
(** A regular block: text; a table with a row, heights and cells that divide the grid, the blocks in
    its cells regular. *)
Inductive regular : sblock -> Prop :=
| regular_text t : regular (ST t)
| regular_table before rows nr nc r : 0 < nr -> TableSpec.partition nr nc r -> divides nr nc r rows ->
    (forall h cells, In (h, cells) rows -> (0 <= h)%Q) ->
    (forall h cells info v bs b, In (h, cells) rows -> In (info, v, bs) cells -> In b bs -> regular b) ->
    regular (STable before rows).

(** A Word body that can be opened: no two tables touch; each cell, at any depth, ends with a paragraph and
    is such a body. *)
Definition is_dtable (d : ditem) : Prop := exists a hs g, d = DTable a hs g.
Definition ends_with_paragraph (l : list ditem) : Prop := exists l' d, l = l' ++ [d] /\ ~ is_dtable d.
Inductive well_formed : list ditem -> Prop :=
| wf_body l : (forall a i j b, l = a ++ i :: j :: b -> ~ (is_dtable i /\ is_dtable j)) ->
    (forall a hs g row t, In (DTable a hs g) l -> In row g -> In t row -> ends_with_paragraph (t_body t) /\ well_formed (t_body t)) ->
    well_formed l.

(** Only the first half: each cell, at any depth, ends with a paragraph. *)
Inductive closed : list ditem -> Prop :=
| closed_body l : (forall a hs g row t, In (DTable a hs g) l -> In row g -> In t row -> ends_with_paragraph (t_body t) /\ closed (t_body t)) -> closed l.

(** Pictures anchored in the paragraphs of a body (not in cells); sections end with their break. *)
Definition floats_of (d : ditem) : list nat := match d with DText _ fs | DOther _ fs => fs | DTable _ _ _ => [] end.
Definition is_section_break (d : ditem) : bool := match d with DOther DocxModel.PBreak _ => true | _ => false end.
Fixpoint dsections (cur : list ditem) (l : list ditem) : list (list ditem) :=
  match l with
  | [] => [cur]
  | d :: t => if is_section_break d then (cur ++ [d]) :: dsections [] t else dsections (cur ++ [d]) t
  end.

(** The parsed blocks of a layout (C66) as they are written: text with the same characters, pictures and formats,
    tables with the same rows, cells, and the blocks in them (the last row at the end of a page or
    cell is made lower by 1 pt, Blocks.py:408-413). *)
Inductive written_as : LayoutModel.lblock -> sblock -> Prop :=
| written_text t s : line_glyphs (st_lines s) = line_glyphs (CleanModel.b_lines t) -> written_as (LayoutModel.LText t) (ST s)
| written_table bb cs before rows :
    map (fun row : Q * list scell => List.length (snd row)) rows = map snd (LayoutModel.tab_rows bb) ->
    (map fst rows = map fst (LayoutModel.tab_rows bb) \/
     exists hs x, map fst (LayoutModel.tab_rows bb) = hs ++ [x] /\ map fst rows = hs ++ [(x - 1)%Q]) ->
    map LayoutModel.lc_info cs = map (fun c : scell => fst (fst c)) (flat_map snd rows) ->
    (forall k c c', nth_error cs k = Some c -> nth_error (flat_map snd rows) k = Some c' -> List.length (LayoutModel.lc_blocks c) = List.length (snd c')) ->
    (forall k c c' j b b', nth_error cs k = Some c -> nth_error (flat_map snd rows) k = Some c' ->
       nth_error (LayoutModel.lc_blocks c) j = Some b -> nth_error (snd c') j = Some b' -> written_as b b') ->
    written_as (LayoutModel.LTable bb cs) (STable before rows).

(** Paragraphs with text and tables of a body, the latter as [None]; in order. *)
Definition entry (d : ditem) : list (option (list (glyph * list style))) :=
  match d with DText w _ => [Some (styled (item_spans (wp_items w)))] | DTable _ _ _ => [None] | DOther _ _ => [] end.
Definition block_entry (b : sblock) : option (list (glyph * list style)) := match b with ST t => Some (line_glyphs (st_lines t)) | STable _ _ => None end.
(** What a Word file shows of a block: of text, the paragraph made of it (C26, C27, C50), with its characters, pictures and formats; of a table whose cells divide
    its grid into rectangles, a table that is divided in the same way and has, for each cell, its borders, shading, direction
    of text, width, and the blocks of the cell, in order; empty auxiliary paragraphs left out. *)
Definition visible (d : ditem) : bool := match d with DOther _ _ => false | _ => true end.
Inductive displays : sblock -> ditem -> Prop :=
| displays_text t w fs : w = text_docx t -> styled (item_spans (wp_items w)) = line_glyphs (st_lines t) -> displays (ST t) (DText w fs)
| displays_table before rows nr nc g : (exists r, TableSpec.partition nr nc r /\ divides nr nc r rows) -> List.length g = nr ->
    (forall r p q i j m n, TableSpec.partition nr nc r -> divides nr nc r rows -> p < nr -> q < nc -> r p q = (i, j, m, n) -> shown_at g p q = Some (i, j) /\
       exists h cells b v bs t, nth_error rows i = Some (h, cells) /\ nth_error cells j = Some (Some b, v, bs) /\
         over g i j = Some (j, t) /\ t_span t = n /\ drawn_edges b (t_pr t) /\ pr_shd (t_pr t) = (match bc_bg b with Some z => [z] | None => [] end) /\
         (pr_vert (t_pr t) = if v then 1 else 0) /\ pr_width (t_pr t) = Some (rx1 (bc_bbox b) - rx0 (bc_bbox b))%Q /\
         Forall2 displays bs (filter visible (t_body t))) ->
    displays (STable before rows) (DTable (20 * tp_left before)%Q (map (fun row => pt (fst row)) rows) g).
