(** Model of the serialisation of parsed pages: [store] and the constructors from
    raw dicts ([restore]) of every class.
      common/Element.py:51-59, 310-312   Element
      text/Char.py:21-25, 55-62          Char
      text/TextSpan.py:47-63, 104-151, 183-196   TextSpan
      image/Image.py:30-42, 51-79, ImageBlock.py:19-46, 66-72, ImageSpan.py:13
      text/Spans.py:13-18, Line.py:27-52, 122-133, Lines.py:27-45, TextBlock.py:41-52, 82-87
      common/Block.py:18-39, 94-98, 146-162
      table/Cell.py:15-25, 75-87, Cells.py:12-27, Row.py:16-24, 48-55, Rows.py:13-25, TableBlock.py:42-50, 96-101
      shape/Shape.py:56-83, 128-142, 231-246, 309-322, Shapes.py:28-47
      page/Blocks.py:45-50, 87-130, Layout.py:51-63, Page.py:111-140
    A Python value is a [pyval]; attributes that the code only passes through are
    kept as [pyval].  [None] is an exception (wrong type of a value, missing
    character for [set_font]).  Simplifications: parents and the original-parent
    id of a line are not modelled; the [raw.pop('bbox')] side effect on the given
    dict (Line.py:48, TextBlock.py:45) is not modelled; a tuple and a list are the
    same value (json makes lists of both). *)
From Verif Require Export Rect ImageModel FontModel.
From Verif Require Import PyBase.
Open Scope Q_scope.
Open Scope string_scope.

Inductive pyval :=
| PNone | PNum (q : Q) | PStr (s : string) | PBytes (s : string)
| PList (l : list pyval) | PDict (d : list (string * pyval)).
Definition dict := list (string * pyval).
(** [d.get(k, default)]. *)
Definition get (k : string) (default : pyval) (d : dict) : pyval :=
  match assoc k d with Some v => v | None => default end.
Definition has (k : string) (d : dict) : bool := match assoc k d with Some _ => true | None => false end.
Definition bind {A B} (x : option A) (f : A -> option B) : option B :=
  match x with Some a => f a | None => None end.
Notation "'let*' x := e 'in' k" := (bind e (fun x => k)) (at level 200, x pattern, right associativity).
Fixpoint mapo {A B} (f : A -> option B) (l : list A) : option (list B) :=
  match l with
  | [] => Some []
  | a :: t => let* b := f a in let* r := mapo f t in Some (b :: r)
  end.
Definition as_num (v : pyval) : option Q := match v with PNum q => Some q | _ => None end.
Definition as_str (v : pyval) : option string := match v with PStr s => Some s | _ => None end.
Definition as_list (v : pyval) : option (list pyval) := match v with PList l => Some l | _ => None end.
Definition as_dict (v : pyval) : option dict := match v with PDict d => Some d | _ => None end.
Definition as_point (v : pyval) : option (Q * Q) := match v with PList [PNum x; PNum y] => Some (x, y) | _ => None end.
Definition as_rect (v : pyval) : option rect :=
  match v with PList [PNum a; PNum b; PNum c; PNum d] => Some (mkRect a b c d) | _ => None end.
Definition py_rect (r : rect) : pyval := PList [PNum (rx0 r); PNum (ry0 r); PNum (rx1 r); PNum (ry1 r)].
Definition py_point (p : Q * Q) : pyval := PList [PNum (fst p); PNum (snd p)].

(** fitz.Matrix; [r * m] as fz_transform_rect does it (PyMuPDF, trusted); [Qred] only
    chooses the representation of the number. *)
Record matrix := mkM { ma : Q; mb : Q; mc : Q; md : Q; me : Q; mf : Q }.
Definition identity : matrix := mkM 1 0 0 1 0 0.
Definition mul_point (m : matrix) (p : Q * Q) : Q * Q :=
  let '(x, y) := p in (Qred (ma m * x + mc m * y + me m), Qred (mb m * x + md m * y + mf m)).
Definition rmul (r : rect) (m : matrix) : rect :=
  let two x0 y0 x1 y1 :=
    let '(u0, v0) := mul_point m (x0, y0) in
    let '(u1, v1) := mul_point m (x1, y1) in mkRect u0 v0 u1 v1 in
  if qeq (mb m) 0 && qeq (mc m) 0 then
    let '(x0, x1) := if qlt (ma m) 0 then (rx1 r, rx0 r) else (rx0 r, rx1 r) in
    let '(y0, y1) := if qlt (md m) 0 then (ry1 r, ry0 r) else (ry0 r, ry1 r) in
    two x0 y0 x1 y1
  else if qeq (ma m) 0 && qeq (md m) 0 then
    let '(x0, x1) := if qlt (mb m) 0 then (rx1 r, rx0 r) else (rx0 r, rx1 r) in
    let '(y0, y1) := if qlt (mc m) 0 then (ry1 r, ry0 r) else (ry0 r, ry1 r) in
    two x0 y0 x1 y1
  else
    let '(a, a') := mul_point m (rx0 r, ry0 r) in
    let '(b, b') := mul_point m (rx0 r, ry1 r) in
    let '(c, c') := mul_point m (rx1 r, ry0 r) in
    let '(d, d') := mul_point m (rx1 r, ry1 r) in
    mkRect (qmin (qmin a b) (qmin c d)) (qmin (qmin a' b') (qmin c' d'))
           (qmax (qmax a b) (qmax c d)) (qmax (qmax a' b') (qmax c' d')).
(** Element.py:44-48 [pure_rotation_matrix]. *)
Definition pure (m : matrix) : matrix := mkM (ma m) (mb m) (mc m) (md m) 0 0.

(** Element.py:51-59: [m] is the global ROTATION_MATRIX. *)
Definition element_box (m : matrix) (d : dict) : option rect :=
  match assoc "bbox" d with
  | None => Some rect0
  | Some v => let* r := as_rect v in Some (rround (rmul r m))
  end.
(** Element.py:118-127 [union_bbox]. *)
Definition union_bbox (b c : rect) : rect := rround (runion b c).
(** Collection.py:160-172 [append] of all of [l] to an empty collection: elements
    with an all-zero box are dropped, the parent's box starts as [b]. *)
Definition kept {A} (box : A -> rect) (l : list A) : list A := filter (fun e => rect_bool (box e)) l.
Definition grown {A} (box : A -> rect) (b : rect) (l : list A) : rect := fold_left (fun acc e => union_bbox acc (box e)) l b.

(* ---------------- characters and spans ---------------- *)
Record char := mkChar { c_box : rect; c_c : string; c_origin : pyval }.
Record tspan := mkTSpan { s_box : rect; s_color : pyval; s_font : string; s_size : Q; s_flags : pyval;
                          s_chars : list char; s_style : pyval }.
Record image := mkImage { i_box : rect; i_ext : pyval; i_width : pyval; i_height : pyval; i_bytes : string }.
Inductive span := TSpan (t : tspan) | ISpan (i : image).
Definition span_box (s : span) : rect := match s with TSpan t => s_box t | ISpan i => i_box i end.

(** Char.py:55-62. *)
Definition store_char (c : char) : pyval :=
  PDict [("bbox", py_rect (c_box c)); ("c", PStr (c_c c)); ("origin", c_origin c)].
(** Char.py:21-25. *)
Definition new_char (m : matrix) (v : pyval) : option char :=
  let* d := as_dict v in
  let* c := as_str (get "c" (PStr "") d) in
  let* b := element_box m d in
  Some (mkChar b c (get "origin" PNone d)).

(** TextSpan.py:90-94 [text]. *)
Definition span_text (cs : list char) : string := fold_right (fun c acc => c_c c ++ acc) "" cs.
(** TextSpan.py:183-196. *)
Definition store_tspan (t : tspan) : pyval :=
  PDict [("bbox", py_rect (s_box t)); ("color", s_color t); ("font", PStr (parse_font (s_font t))); ("size", PNum (s_size t));
         ("flags", s_flags t); ("chars", PList (map store_char (s_chars t))); ("text", PStr (span_text (s_chars t)));
         ("style", s_style t)].

Section Fitz.
(** Font measuring of PyMuPDF (trusted, arbitrary here): length of a text in a size,
    and the rectangle a TextWriter fills starting from an origin. *)
Variable text_length : string -> Q -> Q.
Variable writer_rect : pyval -> string -> Q -> rect.

(** TextSpan.py:104-151 [set_font('Arial')]; [None]: IndexError without characters. *)
Definition set_arial (t : tspan) : option tspan :=
  match s_chars t with
  | [] => None
  | c0 :: _ =>
      let text := span_text (s_chars t) in
      let len := text_length text (s_size t) in
      let size := if qlt (rwidth (s_box t)) len then s_size t * (rwidth (s_box t) / len) else s_size t in
      let r := writer_rect (c_origin c0) text size in
      let buff := (rheight r - size) / 2 in
      let y0 := ry0 r + buff in
      let y1 := ry1 r - buff in
      Some (mkTSpan (rround (mkRect (rx0 (s_box t)) y0 (rx1 (s_box t)) y1)) (s_color t) "Arial" size (s_flags t)
              (map (fun c => mkChar (rround (mkRect (rx0 (c_box c)) y0 (rx1 (c_box c)) y1)) (c_c c) (c_origin c)) (s_chars t))
              (s_style t))
  end.
(** TextSpan.py:47-63. *)
Definition new_tspan (m : matrix) (d : dict) : option tspan :=
  let* font := as_str (get "font" (PStr "") d) in
  let* size := as_num (get "size" (PNum 12) d) in
  let* craw := as_list (get "chars" (PList []) d) in
  let* chars := mapo (new_char m) craw in
  let* b := element_box m d in
  let t := mkTSpan b (get "color" (PNum 0) d) font size (get "flags" (PNum 0) d) chars (get "style" (PList []) d) in
  if unnamed font then set_arial t else Some t.

(** Image.py:65-79, ImageSpan.py:13. *)
Definition image_fields (i : image) : dict :=
  [("ext", i_ext i); ("width", i_width i); ("height", i_height i); ("image", PStr (b64encode (i_bytes i)))].
Definition store_image (i : image) : pyval := PDict (("bbox", py_rect (i_box i)) :: image_fields i).
(** Image.py:39-40. *)
Definition image_bytes (v : pyval) : option string :=
  match v with PBytes s => Some s | PStr s => b64decode s | _ => None end.
(** Image.py:30-42. *)
Definition new_image (m : matrix) (d : dict) : option image :=
  let* bytes := image_bytes (get "image" (PBytes "") d) in
  let* b := element_box m d in
  Some (mkImage b (get "ext" (PStr "png") d) (get "width" (PNum 0) d) (get "height" (PNum 0) d) bytes).
(** Image.py:51-62 [ImageSpan().from_image(i)]. *)
Definition from_image (i : image) : image := mkImage (rround (i_box i)) (i_ext i) (i_width i) (i_height i) (i_bytes i).

Definition store_span (s : span) : pyval := match s with TSpan t => store_tspan t | ISpan i => store_image i end.
(** Spans.py:13-18. *)
Definition new_span (m : matrix) (v : pyval) : option span :=
  let* d := as_dict v in
  if has "image" d then option_map ISpan (new_image m d) else option_map TSpan (new_tspan m d).

(* ---------------- lines ---------------- *)
Record line := mkLine { l_box : rect; l_wmode : pyval; l_dir : Q * Q; l_break : pyval; l_spans : list span }.
(** Line.py:122-133. *)
Definition store_line (l : line) : pyval :=
  PDict [("bbox", py_rect (l_box l)); ("wmode", l_wmode l); ("dir", py_point (l_dir l)); ("line_break", l_break l);
         ("spans", PList (map store_span (l_spans l)))].
(** Line.py:27-52: the box is that of the spans. *)
Definition new_line (m : matrix) (v : pyval) : option line :=
  let* d := as_dict v in
  let* dir := match assoc "dir" d with None => Some (1, 0) | Some p => let* q := as_point p in Some (mul_point (pure m) q) end in
  let* sraw := as_list (get "spans" (PList []) d) in
  let* spans := mapo (new_span m) sraw in
  let spans := kept span_box spans in
  Some (mkLine (grown span_box rect0 spans) (get "wmode" (PNum 0) d) dir (get "line_break" (PNum 0) d) spans).

(* ---------------- shapes ---------------- *)
(** share.py:20-29. *)
Inductive rectype := R_UNDEFINED | R_HIGHLIGHT | R_UNDERLINE | R_STRIKE | R_UNDERLINE_OR_STRIKE | R_HYPERLINK | R_BORDER | R_SHADING.
Definition rectypes : list rectype := [R_UNDEFINED; R_HIGHLIGHT; R_UNDERLINE; R_STRIKE; R_UNDERLINE_OR_STRIKE; R_HYPERLINK; R_BORDER; R_SHADING].
Definition rectype_value (t : rectype) : Q :=
  match t with R_UNDEFINED => -1 | R_HIGHLIGHT => 0 | R_UNDERLINE => 1 | R_STRIKE => 2 | R_UNDERLINE_OR_STRIKE => 5
             | R_HYPERLINK => 7 | R_BORDER => 10 | R_SHADING => 11 end.
Definition by_value {A} (value : A -> Q) (all : list A) (default : A) (v : pyval) : A :=
  match v with PNum q => match find (fun t => qeq (value t) q) all with Some t => t | None => default end | _ => default end.
Inductive shape :=
| Fill (b : rect) (t : rectype) (color : pyval)
| Link (b : rect) (t : rectype) (color : pyval) (uri : pyval)
| Stroke (b : rect) (t : rectype) (color : pyval) (s e : Q * Q) (width : Q).
Definition shape_box (s : shape) : rect := match s with Fill b _ _ | Link b _ _ _ | Stroke b _ _ _ _ _ => b end.
(** Shape.py:77-83, 231-238, 317-322. *)
Definition store_shape (s : shape) : pyval :=
  match s with
  | Fill b t c => PDict [("bbox", py_rect b); ("type", PNum (rectype_value t)); ("color", c)]
  | Link b t c u => PDict [("bbox", py_rect b); ("type", PNum (rectype_value t)); ("color", c); ("uri", u)]
  | Stroke b t c p q w => PDict [("bbox", py_rect b); ("type", PNum (rectype_value t)); ("color", c);
                                 ("start", py_point p); ("end", py_point q); ("width", PNum w)]
  end.
(** Shape.py:241-246 [_to_rect]. *)
Definition line_rect (p q : Q * Q) (w : Q) : rect :=
  let h := w / 2 in mkRect (fst p - h) (snd p - h) (fst q + h) (snd q + h).
(** Shapes.py:28-42, Shape.py:56-72, 128-142, 309-314: no rotation is applied. *)
Definition new_shape (v : pyval) : option shape :=
  let* d := as_dict v in
  let* b := match assoc "bbox" d with None => Some rect0 | Some r => as_rect r end in
  let t := by_value rectype_value rectypes R_UNDEFINED (get "type" (PNum (-1)) d) in
  let c := get "color" (PNum 0) d in
  if has "start" d then
    let* p := as_point (get "start" PNone d) in
    let* q := as_point (get "end" (py_point (0, 0)) d) in
    let* w := as_num (get "width" (PNum 0) d) in
    let '(p, q) := if qlt (fst q) (fst p) || qlt (snd q) (snd p) then (q, p) else (p, q) in
    Some (Stroke (rround (line_rect p q w)) t c p q w)
  else if has "uri" d then Some (Link (rround b) t c (get "uri" (PStr "") d))
  else Some (Fill (rround b) t c).

(* ---------------- blocks ---------------- *)
(** share.py:43-57, Block.py:94-98. *)
Inductive align := A_NONE | A_UNKNOWN | A_LEFT | A_CENTER | A_RIGHT | A_JUSTIFY.
Definition aligns : list align := [A_NONE; A_UNKNOWN; A_LEFT; A_CENTER; A_RIGHT; A_JUSTIFY].
Definition align_value (a : align) : Q :=
  match a with A_NONE => -1 | A_UNKNOWN => 0 | A_LEFT => 1 | A_CENTER => 2 | A_RIGHT => 3 | A_JUSTIFY => 4 end.
Record battrs := mkAttrs { a_align : align; a_left : pyval; a_right : pyval; a_first : pyval; a_before : pyval; a_after : pyval;
                           a_line : pyval; a_tabs : pyval; a_ltotal : pyval; a_rtotal : pyval }.
(** share.py:10-17. *)
Inductive btype := B_UNDEFINED | B_TEXT | B_IMAGE | B_LATTICE | B_STREAM | B_FLOAT.
Definition btype_value (t : btype) : Q :=
  match t with B_UNDEFINED => -1 | B_TEXT => 0 | B_IMAGE => 1 | B_LATTICE => 2 | B_STREAM => 3 | B_FLOAT => 4 end.
(** Block.py:18-37. *)
Definition new_attrs (d : dict) : battrs :=
  mkAttrs (by_value align_value aligns A_LEFT (get "alignment" (PNum 0) d))
    (get "left_space" (PNum 0) d) (get "right_space" (PNum 0) d) (get "first_line_space" (PNum 0) d)
    (get "before_space" (PNum 0) d) (get "after_space" (PNum 0) d) (get "line_space" (PNum 0) d)
    (get "tab_stops" (PList []) d) (get "left_space_total" (PNum 0) d) (get "right_space_total" (PNum 0) d).
(** Block.py:146-162. *)
Definition attrs_fields (b : rect) (t : btype) (a : battrs) : dict :=
  [("bbox", py_rect b); ("type", PNum (btype_value t)); ("alignment", PNum (align_value (a_align a)));
   ("left_space", a_left a); ("right_space", a_right a); ("first_line_space", a_first a);
   ("before_space", a_before a); ("after_space", a_after a); ("line_space", a_line a);
   ("tab_stops", a_tabs a); ("left_space_total", a_ltotal a); ("right_space_total", a_rtotal a)].

(** A text block (also holding an inline image: type IMAGE), an image block, a table.
    A cell has blocks, floating images and shapes (its Layout). *)
Inductive block :=
| TextB (t : btype) (b : rect) (a : battrs) (ls : list line)
| ImgB (t : btype) (a : battrs) (i : image)
| TableB (t : btype) (b : rect) (a : battrs) (rows : list row)
with row := Row (b : rect) (height : pyval) (cells : list cell)
with cell := Cell (b : rect) (bg bcolor bwidth merged : pyval) (blocks : list block) (floats : list block) (shapes : list shape).
Definition block_box (x : block) : rect := match x with TextB _ b _ _ | TableB _ b _ _ => b | ImgB _ _ i => i_box i end.
Definition row_box (r : row) : rect := match r with Row b _ _ => b end.
Definition cell_box (c : cell) : rect := match c with Cell b _ _ _ _ _ _ _ => b end.

(** TextBlock.py:82-87, ImageBlock.py:66-72, TableBlock.py:96-101, Rows/Row.py:48-55,
    Cell.py:75-87 (a cell without box is stored as None), Blocks.py:87-91. *)
Fixpoint store_block (x : block) : pyval :=
  match x with
  | TextB t b a ls => PDict (attrs_fields b t a ++ [("lines", PList (map store_line ls))])%list
  | ImgB t a i => PDict (attrs_fields (i_box i) t a ++ image_fields i)%list
  | TableB t b a rows => PDict (attrs_fields b t a ++ [("rows", PList (map store_row rows))])%list
  end
with store_row (r : row) : pyval :=
  match r with Row b h cells => PDict [("bbox", py_rect b); ("height", h); ("cells", PList (map store_cell cells))] end
with store_cell (c : cell) : pyval :=
  match c with
  | Cell b bg bc bw mg blocks floats _ =>
      if rect_bool b then
        PDict [("bbox", py_rect b); ("bg_color", bg); ("border_color", bc); ("border_width", bw); ("merged_cells", mg);
               ("blocks", PList (map store_block blocks ++ map store_block floats)%list)]
      else PNone
  end.

(** Lines.append / TextBlock.add on a new block. *)
Definition text_block (t : btype) (a : battrs) (ls : list line) : block :=
  let ls := kept l_box ls in TextB t (grown l_box rect0 ls) a ls.
(** ImageBlock.py:26-46 [to_text_block]: the new block has default attributes. *)
Definition default_attrs : battrs := new_attrs [].
Definition to_text_block (i : image) : block :=
  let spans := kept span_box [ISpan (from_image i)] in
  text_block B_IMAGE default_attrs [mkLine (grown span_box rect0 spans) (PNum 0) (1, 0) (PNum 0) spans].

(** Cells.append keeps empty cells. *)
Definition new_row_with (nc : pyval -> option cell) (m : matrix) (v : pyval) : option row :=
  let* d := as_dict v in
  let* b := element_box m d in
  let* craw := as_list (get "cells" (PList []) d) in
  let* cells := mapo nc craw in
  Some (Row (grown cell_box b cells) (get "height" (PNum 0) d) cells).
Definition opt_list {A} (o : option A) : list A := match o with Some a => [a] | None => [] end.
(** Cell.py:15-25, Layout.py:59-63; [nb] restores one block; [raw or {}]. *)
Definition new_cell_with (nb : pyval -> option (option block)) (m : matrix) (v : pyval) : option cell :=
  let* d := match v with PNone => Some [] | _ => as_dict v end in
  let* braw := as_list (get "blocks" (PList []) d) in
  let* bs := mapo nb braw in
  let* sraw := as_list (get "shapes" (PList []) d) in
  let* shapes := mapo new_shape sraw in
  let* b := element_box m d in
  Some (Cell b (get "bg_color" PNone d) (get "border_color" (PList [PNum 0; PNum 0; PNum 0; PNum 0]) d)
          (get "border_width" (PList [PNum 0; PNum 0; PNum 0; PNum 0]) d) (get "merged_cells" (PList [PNum 1; PNum 1]) d)
          (kept block_box (flat_map opt_list bs)) [] (kept shape_box shapes)).
(** Blocks.py:104-128: one raw block; [Some None] is an unknown type (not appended).
    [n] bounds the nesting of tables. *)
Fixpoint new_block (n : nat) (m : matrix) (v : pyval) : option (option block) :=
  match n with
  | O => None
  | S n' =>
      let* d := as_dict v in
      let ty := get "type" (PNum (-1)) d in
      let is t := match ty with PNum q => qeq q (btype_value t) | _ => false end in
      if is B_IMAGE then
        let* i := new_image m d in Some (Some (to_text_block i))
      else if is B_TEXT then
        let* lraw := as_list (get "lines" (PList []) d) in
        let* ls := mapo (new_line m) lraw in
        Some (Some (text_block B_TEXT (new_attrs d) ls))
      else if is B_FLOAT then
        let* i := new_image m d in Some (Some (ImgB B_FLOAT (new_attrs d) i))
      else if is B_LATTICE || is B_STREAM then
        let* b := element_box m d in
        let* rraw := as_list (get "rows" (PList []) d) in
        let* rows := mapo (new_row_with (new_cell_with (new_block n' m) m) m) rraw in
        let rows := kept row_box rows in
        Some (Some (TableB B_LATTICE (grown row_box b rows) (new_attrs d) rows))
      else Some None
  end.

(* ---------------- pages ---------------- *)
Record page := mkPage { p_id : pyval; p_width : pyval; p_height : pyval; p_margin : pyval;
                        p_blocks : list block; p_floats : list block; p_shapes : list shape }.
(** Page.py:111-120, Layout.py:51-56, Blocks.py:87-91. *)
Definition store_page (p : page) : pyval :=
  PDict [("id", p_id p); ("width", p_width p); ("height", p_height p); ("margin", p_margin p);
         ("blocks", PList (map store_block (p_blocks p) ++ map store_block (p_floats p))%list);
         ("shapes", PList (map store_shape (p_shapes p)))].
(** Nesting depth of a value. *)
Fixpoint depth (v : pyval) : nat :=
  match v with
  | PList l => S (fold_right (fun x acc => Nat.max (depth x) acc) 0%nat l)
  | PDict d => S (fold_right (fun kv acc => Nat.max (depth (snd kv)) acc) 0%nat d)
  | _ => 1%nat
  end.
(** Page.py:123-140, Layout.py:59-63, Blocks.py:94-130 on the page [old]: floating
    images of [old] stay (Blocks.restore does not touch them). *)
Definition restore_page (m : matrix) (v : pyval) (old : page) : option page :=
  let* d := as_dict v in
  let* braw := as_list (get "blocks" (PList []) d) in
  let* bs := mapo (new_block (depth v) m) braw in
  let* sraw := as_list (get "shapes" (PList []) d) in
  let* shapes := mapo new_shape sraw in
  Some (mkPage (get "id" (PNum (-1)) d) (get "width" (PNum 0) d) (get "height" (PNum 0) d)
          (get "margin" (PList [PNum 0; PNum 0; PNum 0; PNum 0]) d)
          (kept block_box (flat_map opt_list bs)) (p_floats old) (kept shape_box shapes)).
(** Page.py:40-51: a new page. *)
Definition new_page : page := mkPage (PNum (-1)) (PNum 0) (PNum 0) (PList [PNum 0; PNum 0; PNum 0; PNum 0]) [] [] [].
End Fitz.
