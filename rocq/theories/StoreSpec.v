(** Vocabulary for stored and restored pages. *)
From Verif Require Export StoreModel.
From Verif Require DocxModel.
Open Scope Q_scope.
Open Scope list_scope.

(** The box of a stroke: half its width around its two ends. *)
Definition stroke_area (p q : Q * Q) (w : Q) : rect :=
  mkRect (fst p - w / 2) (snd p - w / 2) (fst q + w / 2) (snd q + w / 2).

(** What a stored element is after reading it back, spelled out per class: boxes
    rounded to one decimal, the box of a line and of a text block recomputed from the
    members, the font name parsed, a table grown to its rows and cells and of the
    lattice kind, an empty cell without any attribute, no shapes inside cells. *)
Definition c_char (c : char) : char := mkChar (rround (c_box c)) (c_c c) (c_origin c).
Definition c_tspan (t : tspan) : tspan :=
  mkTSpan (rround (s_box t)) (s_color t) (parse_font (s_font t)) (s_size t) (s_flags t) (map c_char (s_chars t)) (s_style t).
Definition c_image (i : image) : image := mkImage (rround (i_box i)) (i_ext i) (i_width i) (i_height i) (i_bytes i).
Definition c_span (s : span) : span := match s with TSpan t => TSpan (c_tspan t) | ISpan i => ISpan (c_image i) end.
Definition c_line (l : line) : line :=
  let spans := kept span_box (map c_span (l_spans l)) in
  mkLine (grown span_box rect0 spans) (l_wmode l) (Qred (fst (l_dir l)), Qred (snd (l_dir l))) (l_break l) spans.
Definition c_shape (s : shape) : shape :=
  match s with
  | Fill b t c => Fill (rround b) t c
  | Link b t c u => Link (rround b) t c u
  | Stroke _ t c p q w =>
      let '(p, q) := if qlt (fst q) (fst p) || qlt (snd q) (snd p) then (q, p) else (p, q) in
      Stroke (rround (stroke_area p q w)) t c p q w
  end.
Definition c_text (a : battrs) (ls : list line) : block :=
  let ls := kept l_box (map c_line ls) in TextB B_TEXT (grown l_box rect0 ls) a ls.
Definition empty_cell : cell :=
  Cell rect0 PNone (PList [PNum 0; PNum 0; PNum 0; PNum 0]) (PList [PNum 0; PNum 0; PNum 0; PNum 0]) (PList [PNum 1; PNum 1]) [] [] [].
Fixpoint c_block (x : block) : block :=
  match x with
  | TextB _ _ a ls => c_text a ls
  | ImgB _ a i => ImgB B_FLOAT a (c_image i)
  | TableB _ b a rows => let rows := kept row_box (map c_row rows) in TableB B_LATTICE (grown row_box (rround b) rows) a rows
  end
with c_row (r : row) : row :=
  match r with Row b h cells => let cells := map c_cell cells in Row (grown cell_box (rround b) cells) h cells end
with c_cell (c : cell) : cell :=
  match c with
  | Cell b bg bc bw mg blocks floats _ =>
      if rect_bool b then Cell (rround b) bg bc bw mg (kept block_box (map c_block blocks ++ map c_block floats)) [] []
      else empty_cell
  end.
(** The page read back: floating images become ordinary blocks at the end. *)
Definition c_page (p old : page) : page :=
  mkPage (p_id p) (p_width p) (p_height p) (p_margin p)
    (kept block_box (map c_block (p_blocks p) ++ map c_block (p_floats p))) (p_floats old) (kept shape_box (map c_shape (p_shapes p))).

(** What can be stored faithfully: no span whose (parsed) font still counts as
    unnamed, text blocks of type TEXT, image blocks of type FLOAT_IMAGE, tables. *)
Definition named_span (s : span) : Prop := match s with TSpan t => unnamed (parse_font (s_font t)) = false | ISpan _ => True end.
Definition named_line (l : line) : Prop := Forall named_span (l_spans l).
Definition all {A} (P : A -> Prop) : list A -> Prop := fix go l := match l with [] => True | x :: t => P x /\ go t end.
Fixpoint storable (x : block) : Prop :=
  match x with
  | TextB t _ _ ls => t = B_TEXT /\ all named_line ls
  | ImgB t _ _ => t = B_FLOAT
  | TableB t _ _ rows => (t = B_LATTICE \/ t = B_STREAM) /\ all storable_row rows
  end
with storable_row (r : row) : Prop := match r with Row _ _ cells => all storable_cell cells end
with storable_cell (c : cell) : Prop := match c with Cell _ _ _ _ _ bs fs _ => all storable bs /\ all storable fs end.
Definition page_storable (p : page) : Prop := all storable (p_blocks p) /\ all storable (p_floats p).

(** No raw bytes inside: json can write it. *)
Fixpoint plain (v : pyval) : bool :=
  match v with
  | PBytes _ => false
  | PList l => forallb plain l
  | PDict d => forallb (fun kv => plain (snd kv)) d
  | _ => true
  end.

(** An element as the parser leaves it: every box has one decimal and is not all zero,
    the box of a line / text block is that of its members, rows and tables cover their
    members, the font name is a parsed one, an empty cell has no attribute, strokes have
    the box of their line. *)
Definition rounded (r : rect) : Prop := rround r = r.
Definition there (r : rect) : Prop := rect_bool r = true.
Definition settled_char (c : char) : Prop := rounded (c_box c).
Definition settled_span (s : span) : Prop :=
  match s with
  | TSpan t => rounded (s_box t) /\ there (s_box t) /\ parse_font (s_font t) = s_font t /\ unnamed (s_font t) = false /\ all settled_char (s_chars t)
  | ISpan i => rounded (i_box i) /\ there (i_box i)
  end.
Definition settled_line (l : line) : Prop :=
  l_box l = grown span_box rect0 (l_spans l) /\ there (l_box l) /\
  Qred (fst (l_dir l)) = fst (l_dir l) /\ Qred (snd (l_dir l)) = snd (l_dir l) /\ all settled_span (l_spans l).
Definition settled_shape (s : shape) : Prop :=
  there (shape_box s) /\
  match s with
  | Fill b _ _ | Link b _ _ _ => rounded b
  | Stroke b _ _ p q w => fst p <= fst q /\ snd p <= snd q /\ b = rround (stroke_area p q w)
  end.
Fixpoint settled (x : block) : Prop :=
  match x with
  | TextB t b _ ls => t = B_TEXT /\ b = grown l_box rect0 ls /\ there b /\ all settled_line ls
  | ImgB t _ i => t = B_FLOAT /\ rounded (i_box i) /\ there (i_box i)
  | TableB t b _ rows => t = B_LATTICE /\ rounded b /\ there b /\ grown row_box b rows = b /\ all settled_row rows
  end
with settled_row (r : row) : Prop :=
  match r with Row b _ cells => rounded b /\ there b /\ grown cell_box b cells = b /\ all settled_cell cells end
with settled_cell (c : cell) : Prop :=
  match c with
  | Cell b bg bc bw mg bs fs sh =>
      c = empty_cell \/ (rounded b /\ there b /\ fs = [] /\ sh = [] /\ all settled bs)
  end.
Definition settled_page (p : page) : Prop :=
  all settled (p_blocks p) /\ all settled (p_floats p) /\ all settled_shape (p_shapes p).

(** Table text as [extract_tables] returns it (Page.py:159-176, TableBlock.py:77-84,
    Cell.py:28-34, TextBlock.py:55-59, Line.py:55-59); [strip] is Python's [str.strip]. *)
Section Text.
Variable strip : string -> string.
Definition join (sep : string) (l : list string) : string :=
  match l with [] => EmptyString | x :: t => fold_left (fun acc y => acc ++ sep ++ y)%string t x end.
Definition newline : string := String (Ascii.ascii_of_nat 10) EmptyString.
Definition line_text (l : line) : string :=
  join EmptyString (map (fun s => strip (match s with TSpan t => span_text (s_chars t) | ISpan _ => "<image>"%string end)) (l_spans l)).
Definition cell_text (c : cell) : option string :=
  match c with
  | Cell b _ _ _ _ bs _ _ =>
      if rect_bool b then
        Some (join newline (map (fun x => match x with
                | TextB B_TEXT _ _ ls => join newline (map line_text ls)
                | _ => "<NEST TABLE>"%string end) bs))
      else None
  end.
Definition table_text (x : block) : list (list (option string)) :=
  match x with TableB _ _ _ rows => map (fun r => match r with Row _ _ cells => map cell_text cells end) rows | _ => [] end.
(** [stream]: the setting extract_stream_table. *)
Definition is_lattice (x : block) : bool := match x with TableB B_LATTICE _ _ _ => true | _ => false end.
Definition is_table (x : block) : bool := match x with TableB B_LATTICE _ _ _ | TableB B_STREAM _ _ _ => true | _ => false end.
Definition extract_tables (stream : bool) (p : page) : list (list (list (option string))) :=
  map table_text (filter (if stream then is_table else is_lattice) (p_blocks p)).
End Text.

(** The page as the docx writer sees it (DocxModel): types of the flow blocks, and the
    floating images by number. *)
Definition btype_docx (x : block) : DocxModel.btype :=
  match x with
  | TextB t _ _ _ | ImgB t _ _ | TableB t _ _ _ =>
      match t with B_UNDEFINED => DocxModel.UNDEFINED | B_TEXT => DocxModel.TEXT | B_IMAGE => DocxModel.IMAGE
                 | B_LATTICE => DocxModel.LATTICE_TABLE | B_STREAM => DocxModel.STREAM_TABLE | B_FLOAT => DocxModel.FLOAT_IMAGE end
  end.
Definition before_of (x : block) : Q :=
  match x with TextB _ _ a _ | ImgB _ a _ | TableB _ _ a _ => match a_before a with PNum q => q | _ => 0 end end.
Definition docx_page (s : DocxModel.section) (p : page) : DocxModel.page :=
  DocxModel.mkPage s (map (fun kx => DocxModel.mkBlock (fst kx) (btype_docx (snd kx)) (before_of (snd kx)))
                          (combine (seq 0 (List.length (p_blocks p))) (p_blocks p)))
    (seq 0 (List.length (p_floats p))).

(** Attributes that are passed through contain no raw bytes. *)
Definition plain_char (c : char) : Prop := plain (c_origin c) = true.
Definition plain_span (s : span) : Prop :=
  match s with
  | TSpan t => plain (s_color t) = true /\ plain (s_flags t) = true /\ plain (s_style t) = true /\ all plain_char (s_chars t)
  | ISpan i => plain (i_ext i) = true /\ plain (i_width i) = true /\ plain (i_height i) = true
  end.
Definition plain_line (l : line) : Prop := plain (l_wmode l) = true /\ plain (l_break l) = true /\ all plain_span (l_spans l).
Definition plain_attrs (a : battrs) : Prop :=
  all (fun v => plain v = true) [a_left a; a_right a; a_first a; a_before a; a_after a; a_line a; a_tabs a; a_ltotal a; a_rtotal a].
Fixpoint plain_block (x : block) : Prop :=
  match x with
  | TextB _ _ a ls => plain_attrs a /\ all plain_line ls
  | ImgB _ a i => plain_attrs a /\ plain (i_ext i) = true /\ plain (i_width i) = true /\ plain (i_height i) = true
  | TableB _ _ a rows => plain_attrs a /\ all plain_row rows
  end
with plain_row (r : row) : Prop := match r with Row _ h cells => plain h = true /\ all plain_cell cells end
with plain_cell (c : cell) : Prop :=
  match c with Cell _ bg bc bw mg bs fs _ => all (fun v => plain v = true) [bg; bc; bw; mg] /\ all plain_block bs /\ all plain_block fs end.
Definition plain_shape (s : shape) : Prop :=
  match s with Fill _ _ c => plain c = true | Link _ _ c u => plain c = true /\ plain u = true | Stroke _ _ c _ _ _ => plain c = true end.
Definition plain_page (p : page) : Prop :=
  all (fun v => plain v = true) [p_id p; p_width p; p_height p; p_margin p] /\ all plain_block (p_blocks p) /\ all plain_block (p_floats p) /\ all plain_shape (p_shapes p).

(** Ordinary parse results: table, row and cell boxes are in order and have one
    decimal, font names have no comma, strokes run along an axis. *)
Definition no_comma_span (s : span) : Prop := match s with TSpan t => ~ In ","%char (list_ascii_of_string (s_font t)) | ISpan _ => True end.
Definition no_comma_line (l : line) : Prop := all no_comma_span (l_spans l).
Definition boxed (r : rect) : Prop := rounded r /\ valid r.
Fixpoint regular (x : block) : Prop :=
  match x with
  | TextB _ _ _ ls => all no_comma_line ls
  | ImgB _ _ _ => True
  | TableB _ b _ rows => boxed b /\ all regular_row rows
  end
with regular_row (r : row) : Prop := match r with Row b _ cells => boxed b /\ all regular_cell cells end
with regular_cell (c : cell) : Prop := match c with Cell b _ _ _ _ bs fs _ => (rect_bool b = true -> boxed b) /\ all regular bs /\ all regular fs end.
Definition axis_shape (s : shape) : Prop :=
  match s with Stroke _ _ _ p q _ => fst p == fst q \/ snd p == snd q | _ => True end.
Definition regular_page (p : page) : Prop := all regular (p_blocks p) /\ all regular (p_floats p) /\ all axis_shape (p_shapes p).
