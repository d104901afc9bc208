(** Model of writing parsed pages to Word as a whole: Blocks.make_docx (page/Blocks.py:501-559), TextBlock.make_docx
    (text/TextBlock.py:255-307), TableBlock.make_docx, Row.make_docx, Cell.make_docx (table/TableBlock.py:155-166,
    table/Row.py:58-77, table/Cell.py:144-178), Page.make_docx (page/Page.py:179-208), tables in cells of tables
    to any depth.  The order of the items of a body is that of DocxModel, the inside of a paragraph that of
    ParaModel, the inside of a table that of WordModel; here they are put together.
    Simplifications: besides those of these models, blocks of pictures (IMAGE) do not occur (Blocks.py turns them into
    lines of text blocks before), a cell has no floating pictures (they are found for pages only, RawPage.py),
    and writing the runs of a paragraph does not raise (CutModel is the same writer without these assumptions on runs). *)
From Verif Require Export WordModel ParaModel.
From Verif Require DocxModel.
Open Scope nat_scope.

(** A parsed text block: what its paragraph is made from. *)
Record stext := mkSText { st_bbox : rect; st_para : para; st_before : Q; st_after : Q; st_spacing : Q;
                          st_lines : list line; st_breaks : list bool }.
(** Where a table is set: the space before it, and its distance from the left side of the layout (Block.py:100-112, left_space); is it one with explicit borders (Block.py:62-68)? *)
Record tplace := mkTP { tp_before : Q; tp_left : Q; tp_lattice : bool }.
(** A parsed block: text, or a table with its place, heights of the rows, and cells as parsed ([None]: part of a
    merged cell), whether their text is vertical (Cell.py:228-229), their blocks. *)
Inductive sblock :=
| ST (t : stext)
| STable (before : tplace) (rows : list (Q * list (option bcell * bool * list sblock))).
Definition scell := (option bcell * bool * list sblock)%type.

(** Items of a Word body: a paragraph made from a text block, another paragraph (see DocxModel), a table: its indent in
    twentieths of a point (docx.py:307-319), heights of its rows, its cells. *)
Inductive ditem :=
| DText (w : wordp) (floats : list nat)
| DOther (k : DocxModel.para) (floats : list nat)
| DTable (indent : Q) (heights : list Z) (cells : list (list (tc ditem))).
Definition dnewp : ditem := DOther DocxModel.PAuto [].
(** CT_Tc._is_empty: a paragraph without runs; tabs, breaks and pictures are runs too. *)
Definition dnoruns (d : ditem) : bool :=
  match d with
  | DText w fs => match wp_items w, fs with [], [] => true | _, _ => false end
  | DOther _ fs => match fs with [] => true | _ => false end
  | DTable _ _ _ => false
  end.

(** A block with its inside written. *)
Inductive made := MText (w : wordp) | MTable (before : tplace) (heights : list Z) (cells : list (list (tc ditem))).
Definition made_type (m : made) : DocxModel.btype := match m with MText _ => DocxModel.TEXT | MTable _ _ _ => DocxModel.LATTICE_TABLE end.
Definition made_before (m : made) : Q := match m with MText _ => 0%Q | MTable b _ _ => tp_before b end.
(** The blocks, named by their position. *)
Fixpoint number (k : nat) (ms : list made) : list DocxModel.block :=
  match ms with [] => [] | m :: t => DocxModel.mkBlock k (made_type m) (made_before m) :: number (S k) t end.
Definition expand (ms : list made) (i : DocxModel.item) : ditem :=
  match i with
  | DocxModel.Para (DocxModel.PBlock id) fs => match nth_error ms id with Some (MText w) => DText w fs | _ => DOther DocxModel.PAuto fs end
  | DocxModel.Para k fs => DOther k fs
  | DocxModel.Tab id => match nth_error ms id with Some (MTable b hs g) => DTable (20 * tp_left b)%Q hs g | _ => DOther DocxModel.PAuto [] end
  end.
(** Blocks.py:501-559 for the blocks of a cell. *)
Definition cell_docx (ms : list made) : list ditem := map (expand ms) (DocxModel.cell_content (number 0 ms) []).

Fixpoint all_some {A} (l : list (option A)) : option (list A) :=
  match l with [] => Some [] | x :: t => obind x (fun a => option_map (cons a) (all_some t)) end.

(** TextBlock.py:255-307. *)
Definition text_docx (t : stext) : wordp :=
  make_paragraph (st_bbox t) (st_para t) (st_before t) (st_after t) (st_spacing t) (st_lines t) (st_breaks t).
(** Blocks.py:524-535 and Cell.py:144-178 (line 153: a merged cell is left out; 176: a cell without blocks stays
    as it is); Row.py:74: as many cells of each row as the table has columns. *)
Fixpoint block_docx (b : sblock) : option made :=
  match b with
  | ST t => Some (MText (text_docx t))
  | STable before rows =>
      let ncols := match rows with [] => 0 | (_, cells) :: _ => List.length cells end in
      let cell (c : scell) : option (wcell ditem) :=
        match c with
        | (None, v, _) => Some (mkW None v None)
        | (Some i, v, bs) => option_map (fun ms => mkW (Some i) v (match ms with [] => None | _ => Some (cell_docx ms) end)) (all_some (map block_docx bs))
        end in
      obind (all_some (map (fun row => option_map (pair (fst row)) (all_some (firstn ncols (map cell (snd row))))) rows)) (fun src =>
        option_map (fun t => MTable before (fst t) (snd t)) (word_table dnewp dnoruns src))
  end.

(** A page: section, blocks, floating pictures. *)
Record spage := mkSPage { sp_section : DocxModel.section; sp_blocks : list sblock; sp_floats : list nat }.
Fixpoint number_pages (k : nat) (ps : list (spage * list made)) : list DocxModel.page :=
  match ps with
  | [] => []
  | (p, ms) :: t => DocxModel.mkPage (sp_section p) (number k ms) (sp_floats p) :: number_pages (k + List.length ms) t
  end.
(** converter.py:108-118: the pages one after the other; sections and body of the document.  [None]: a page raises
    (line 117 then goes on with what was written of it; not modelled). *)
Definition document_docx (template : DocxModel.section) (ps : list spage) : option (list DocxModel.section * list ditem) :=
  option_map (fun mss => let d := DocxModel.make_pages template (number_pages 0 (combine ps mss)) in
                         (DocxModel.d_sections d, map (expand (concat mss)) (DocxModel.d_body d)))
             (all_some (map (fun p => all_some (map block_docx (sp_blocks p))) ps)).
