(** Model of the emission of a page or a cell into the docx body:
    Blocks.make_docx (page/Blocks.py:501-559), Page.make_docx (page/Page.py:179-208),
    Cell.make_docx (table/Cell.py:172-178), block types (common/Block.py:42-72).
    python-docx: [Document.add_paragraph] appends a paragraph, [Document.add_table] a
    table, [_Cell.add_table] a table followed by an empty paragraph, and
    [Document.add_section] appends a paragraph carrying the section break.
    Simplification: the inside of a paragraph or table is opaque (an id); the
    content of a cell is produced by the same function with container [InCell]. *)
From Verif Require Export PyNum.
Open Scope Q_scope.

(** share.py:10-17. *)
Inductive btype := UNDEFINED | TEXT | IMAGE | LATTICE_TABLE | STREAM_TABLE | FLOAT_IMAGE.
Record block := mkBlock { b_id : nat; b_type : btype; b_before : Q }.
(** Block.py:58-60, 70-72, 50-52. *)
Definition is_text_image (b : block) : bool := match b_type b with TEXT | IMAGE => true | _ => false end.
Definition is_table (b : block) : bool := match b_type b with LATTICE_TABLE | STREAM_TABLE => true | _ => false end.
Definition is_float (b : block) : bool := match b_type b with FLOAT_IMAGE => true | _ => false end.

(** Body items.  A paragraph carries the floating images anchored in it. *)
Inductive para := PBlock (id : nat) | PDummy (h : Q) | PTrail | PAuto | PBreak.
Inductive item := Para (k : para) (floats : list nat) | Tab (id : nat).
Definition body := list item.
Inductive container := InDoc | InCell.

Definition add_paragraph (k : para) (b : body) : body := b ++ [Para k []].
Definition add_table (c : container) (id : nat) (b : body) : body :=
  match c with InDoc => b ++ [Tab id] | InCell => b ++ [Tab id; Para PAuto []] end.

(** Blocks.py:507-520 [make_table]; constants.MIN_LINE_SPACING = 0.7. *)
Definition dummy_height (before : Q) : Q := inject_Z (qtrunc (10 * before)) / 10.
Definition make_table (c : container) (t : block) (pre_table : bool) (b : body) : body :=
  let b1 := if qle (7 # 10) (b_before t) || pre_table then add_paragraph (PDummy (dummy_height (b_before t))) b else b in
  add_table c (b_id t) b1.
(** Blocks.py:522-535. *)
Fixpoint make_flow (c : container) (bs : list block) (pre_table : bool) (b : body) : body :=
  match bs with
  | [] => b
  | x :: t =>
      if is_text_image x then make_flow c t false (add_paragraph (PBlock (b_id x)) b)
      else if is_table x then make_flow c t true (make_table c x pre_table b)
      else make_flow c t pre_table b
  end.
(** Blocks.py:545-554, on the reversed list of instances. *)
Fixpoint add_trailing (rbs : list block) (b : body) : body :=
  match rbs with
  | [] => b
  | x :: t => if is_float x then add_trailing t b
              else if negb (is_table x) then b
              else add_trailing t (add_paragraph PTrail b)
  end.
(** [doc.paragraphs] is empty. *)
Definition is_para (i : item) : bool := match i with Para _ _ => true | Tab _ => false end.
Definition no_paragraphs (b : body) : bool := negb (existsb is_para b).
(** Anchor images in [doc.paragraphs[-1]]. *)
Fixpoint anchor_first (imgs : list nat) (rb : body) : body :=
  match rb with
  | [] => []
  | Para k fs :: t => Para k (fs ++ imgs) :: t
  | i :: t => i :: anchor_first imgs t
  end.
Definition anchor_last (imgs : list nat) (b : body) : body := rev (anchor_first imgs (rev b)).
(** Blocks.py:556-559. *)
Definition add_floats (imgs : list nat) (b : body) : body :=
  anchor_last imgs (if no_paragraphs b then add_paragraph PAuto b else b).
(** Blocks.py:501-559.  Line 538 never returns: the parent of Blocks is a Layout,
    not a Cell (Layout.py:42). *)
Definition blocks_make_docx (c : container) (bs : list block) (imgs : list nat) (b : body) : body :=
  add_floats imgs (add_trailing (rev bs) (make_flow c bs false b)).

(** Cell.py:172-178: content of a docx cell, initially one empty paragraph. *)
Definition cell_content (bs : list block) (imgs : list nat) : body :=
  match bs with [] => [Para PAuto []] | _ => blocks_make_docx InCell bs imgs [] end.

(** Page geometry written to a section (Page.py:197-205). *)
Record section := mkSection { s_width : Q; s_height : Q; s_margin : list Q }.
Record page := mkPage { p_section : section; p_blocks : list block; p_floats : list nat }.
Record document := mkDoc { d_body : body; d_sections : list section }.
(** Set the properties of the last section. *)
Definition set_last (s : section) (l : list section) : list section := removelast l ++ [s].
(** Page.py:179-208 [make_docx]. *)
Definition page_make_docx (d : document) (p : page) : document :=
  let d1 := if no_paragraphs (d_body d)
            then mkDoc (d_body d) (p_section p :: tl (d_sections d))
            else mkDoc (add_paragraph PBreak (d_body d)) (d_sections d ++ [p_section p]) in
  mkDoc (blocks_make_docx InDoc (p_blocks p) (p_floats p) (d_body d1)) (d_sections d1).
(** A new Document(): no body content, one section with the template's properties
    (converter.py: make_docx creates it and makes the finalized pages in order). *)
Definition make_pages (template : section) (ps : list page) : document :=
  fold_left page_make_docx ps (mkDoc [] [template]).
