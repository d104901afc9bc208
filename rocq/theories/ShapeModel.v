(** Model of pdf2docx/shape/Shape.py and of Shapes.clean_up,
    detect_initial_categories, assign_to_tables (shape/Shapes.py). *)
From Verif Require Export GeomModel.
Open Scope Q_scope.

(** share.py:20-32 [RectType]. *)
Inductive rtype := R_UNDEFINED | R_HIGHLIGHT | R_UNDERLINE | R_STRIKE | R_HYPERLINK | R_SHADING | R_BORDER | R_UNDERLINE_OR_STRIKE.
Definition rtype_eqb (a b : rtype) : bool :=
  match a, b with
  | R_UNDEFINED, R_UNDEFINED | R_HIGHLIGHT, R_HIGHLIGHT | R_UNDERLINE, R_UNDERLINE | R_STRIKE, R_STRIKE
  | R_HYPERLINK, R_HYPERLINK | R_SHADING, R_SHADING | R_BORDER, R_BORDER | R_UNDERLINE_OR_STRIKE, R_UNDERLINE_OR_STRIKE => true
  | _, _ => false
  end.
(** Class of a shape object. *)
Inductive kind := KStroke | KFill | KLink.
Definition kind_eqb (a b : kind) : bool :=
  match a, b with KStroke, KStroke | KFill, KFill | KLink, KLink => true | _, _ => false end.

(** Shape.py:54-83, 124-143, 301-314.  Start, end and width are used by strokes only,
    uri by hyperlinks only. *)
Record shape := mkShape {
  sh_kind : kind; sh_bbox : rect; sh_color : Z; sh_type : rtype;
  sh_x0 : Q; sh_y0 : Q; sh_x1 : Q; sh_y1 : Q; sh_width : Q; sh_uri : nat }.
Definition shape_bool (s : shape) : bool := rect_bool (sh_bbox s).

(** Shape.py:241-246 [_to_rect]. *)
Definition stroke_rect (x0 y0 x1 y1 w : Q) : rect :=
  let h := w / 2 in mkRect (x0 - h) (y0 - h) (x1 + h) (y1 + h).
(** Shape.py:128-142 [Stroke(raw)]. *)
Definition new_stroke (ax ay bx by_ w : Q) (color : Z) (t : rtype) : shape :=
  if qlt bx ax || qlt by_ ay
  then mkShape KStroke (rround (stroke_rect bx by_ ax ay w)) color t bx by_ ax ay w 0
  else mkShape KStroke (rround (stroke_rect ax ay bx by_ w)) color t ax ay bx by_ w 0.
(** [Stroke()]. *)
Definition empty_stroke : shape := new_stroke 0 0 0 0 0 0 R_UNDEFINED.
(** Shape.py:56-72 [Fill(raw)], [Hyperlink(raw)]. *)
Definition new_fill (b : rect) (color : Z) (t : rtype) : shape := mkShape KFill (rround b) color t 0 0 0 0 0 0.
Definition new_link (b : rect) (uri : nat) : shape := mkShape KLink (rround b) 0 R_HYPERLINK 0 0 0 0 0 uri.
(** Shape.py:145-149. *)
Definition horizontal (s : shape) : bool := qlt (qabs (sh_y0 s - sh_y1 s)) (1 # 1000).
Definition vertical (s : shape) : bool := qlt (qabs (sh_x0 s - sh_x1 s)) (1 # 1000).

Definition set_line (s : shape) (b : rect) (x0 y0 x1 y1 : Q) : shape :=
  mkShape (sh_kind s) b (sh_color s) (sh_type s) x0 y0 x1 y1 (sh_width s) (sh_uri s).
(** Shape.py:164-200 [Stroke.update_bbox]. *)
Definition stroke_update_bbox (s : shape) (r : rect) : shape :=
  if qeq (area r) 0 then
    set_line s (rround (stroke_rect (rx0 r) (ry0 r) (rx1 r) (ry1 r) (sh_width s))) (rx0 r) (ry0 r) (rx1 r) (ry1 r)
  else if qle (rheight r) (rwidth r) then
    let y := (ry0 r + ry1 r) / 2 in set_line s (rround r) (rx0 r) y (rx1 r) y
  else
    let x := (rx0 r + rx1 r) / 2 in set_line s (rround r) x (ry0 r) x (ry1 r).
Definition shape_update_bbox (s : shape) (r : rect) : shape :=
  match sh_kind s with
  | KStroke => stroke_update_bbox s r
  | _ => set_line s (rround r) (sh_x0 s) (sh_y0 s) (sh_x1 s) (sh_y1 s)
  end.
(** Shape.py:254-273 [Fill.to_stroke]. *)
Definition to_stroke (s : shape) (max_border_width : Q) : option shape :=
  let w := qmin (rwidth (sh_bbox s)) (rheight (sh_bbox s)) in
  if qlt max_border_width w then None
  else Some (stroke_update_bbox (new_stroke 0 0 0 0 w (sh_color s) R_UNDEFINED) (sh_bbox s)).

(** Stored data of a shape (Shape.py:77-83, 231-238, 317-322; Element.store) and the
    constructor used by Shapes.restore (Shapes.py:28-42): 'start' / 'uri' / neither. *)
Inductive raw_shape :=
| RawStroke (b : rect) (t : rtype) (color : Z) (ax ay bx by_ w : Q)
| RawLink (b : rect) (t : rtype) (color : Z) (uri : nat)
| RawFill (b : rect) (t : rtype) (color : Z).
Definition store_shape (s : shape) : raw_shape :=
  match sh_kind s with
  | KStroke => RawStroke (sh_bbox s) (sh_type s) (sh_color s) (sh_x0 s) (sh_y0 s) (sh_x1 s) (sh_y1 s) (sh_width s)
  | KLink => RawLink (sh_bbox s) (sh_type s) (sh_color s) (sh_uri s)
  | KFill => RawFill (sh_bbox s) (sh_type s) (sh_color s)
  end.
Definition restore_shape (r : raw_shape) : shape :=
  match r with
  | RawStroke b t c ax ay bx by_ w => new_stroke ax ay bx by_ w c t
  | RawLink b t c u => mkShape KLink (rround b) c t 0 0 0 0 0 u
  | RawFill b t c => mkShape KFill (rround b) c t 0 0 0 0 0 0
  end.

(* ------------------------------------------------------------------ *)
(** * Shapes.clean_up (Shapes.py:103-154) *)
(** Shapes.py:117-126; [page] is the box of the parent. *)
Definition shape_key (s : shape) : list Q := [ry0 (sh_bbox s); rx0 (sh_bbox s); rx1 (sh_bbox s)].
Definition keep_shape (page : rect) (min_dim : Q) (s : shape) : bool :=
  rintersects (sh_bbox s) page && (qle min_dim (rwidth (sh_bbox s)) || qle min_dim (rheight (sh_bbox s))).
Definition is_link_type (s : shape) : bool := rtype_eqb (sh_type s) R_HYPERLINK.
(** Shapes.py:131-143: the inner loop with its else clause. *)
Fixpoint merge_into (thr : Q) (s : shape) (uniq : list shape) : list shape :=
  match uniq with
  | [] => [s]
  | u :: t =>
      if negb (Z.eqb (sh_color u) (sh_color s)) || (is_link_type s || is_link_type u) then u :: merge_into thr s t
      else match get_main_bbox (sh_bbox s) (sh_bbox u) thr with
           | Some m => if rect_bool m then shape_update_bbox u m :: t else u :: merge_into thr s t
           | None => u :: merge_into thr s t
           end
  end.
(** Shapes.py:129-143. *)
Definition merge_shapes (thr : Q) (l : list shape) : list shape := fold_left (fun uniq s => merge_into thr s uniq) l [].
(** Shapes.py:146-152. *)
Definition stroke_if_thin (w : Q) (s : shape) : shape :=
  match sh_kind s with
  | KFill => match to_stroke s w with Some t => if shape_bool t then t else s | None => s end
  | _ => s
  end.
(** Shapes.py:115-154; reset() drops shapes with an all-zero box (Collection.py:166). *)
Definition clean_up (page : rect) (max_border_width thr min_dim : Q) (l : list shape) : list shape :=
  filter shape_bool
    (map (stroke_if_thin max_border_width) (merge_shapes thr (filter (keep_shape page min_dim) (sort_key shape_key l)))).

(* ------------------------------------------------------------------ *)
(** * Classification *)
(** A text block: its box and the boxes of its lines. *)
Record tblock := mkTblock { tb_bbox : rect; tb_lines : list rect }.
(** constants.py. *)
Definition FACTOR_MAJOR : Q := 3 # 4.
(** Shape.py:203-228 and 276-298. *)
Definition check_semantic (s : shape) (b : tblock) : rtype :=
  match sh_kind s with
  | KStroke => if contains (tb_bbox b) (sh_bbox s) 1
               then if existsb (fun l => contains l (sh_bbox s) 1) (tb_lines b) then R_UNDERLINE_OR_STRIKE else R_UNDEFINED
               else R_UNDEFINED
  | KFill => if contains (sh_bbox s) (tb_bbox b) FACTOR_MAJOR then R_SHADING
             else if existsb (fun l => contains (sh_bbox s) l FACTOR_MAJOR) (tb_lines b) then R_SHADING else R_UNDEFINED
  | KLink => R_UNDEFINED
  end.
(** Shape.py:86-108, 325-327. *)
Fixpoint semantic_loop (s : shape) (bs : list tblock) : rtype :=
  match bs with
  | [] => R_UNDEFINED
  | b :: t =>
      if qlt (ry1 (tb_bbox b)) (ry0 (sh_bbox s)) then semantic_loop s t
      else let r := check_semantic s b in
           if negb (rtype_eqb r R_UNDEFINED) then r
           else if qlt (ry1 (sh_bbox s)) (ry0 (tb_bbox b)) then R_UNDEFINED
           else semantic_loop s t
  end.
Definition semantic_type (s : shape) (bs : list tblock) : rtype :=
  match sh_kind s with KLink => R_HYPERLINK | _ => semantic_loop s bs end.
(** The four groups of Shapes.py:21-25. *)
Record groups := mkGroups { g_table_strokes : list shape; g_table_fillings : list shape;
                            g_underlines : list shape; g_highlights : list shape }.
Definition add_if (s : shape) (l : list shape) : list shape := if shape_bool s then l ++ [s] else l.
(** Shapes.py:177-207, one shape. *)
Definition classify (bs : list tblock) (g : groups) (s : shape) : groups :=
  match semantic_type s bs with
  | R_HYPERLINK => g
  | R_UNDERLINE_OR_STRIKE => mkGroups (g_table_strokes g) (g_table_fillings g) (add_if s (g_underlines g)) (g_highlights g)
  | R_SHADING => mkGroups (g_table_strokes g) (add_if s (g_table_fillings g)) (g_underlines g) (g_highlights g)
  | _ => if kind_eqb (sh_kind s) KStroke
         then mkGroups (add_if s (g_table_strokes g)) (g_table_fillings g) (add_if s (g_underlines g)) (g_highlights g)
         else mkGroups (g_table_strokes g) (g_table_fillings g) (g_underlines g) (add_if s (g_highlights g))
  end.
(** Shapes.py:157-207; the blocks of the page in reading order (horizontal text). *)
Definition detect_categories (bs : list tblock) (l : list shape) : groups :=
  let sorted := sort_key (fun b => [ry0 (tb_bbox b); rx0 (tb_bbox b); rx1 (tb_bbox b)]) bs in
  fold_left (classify sorted) l (mkGroups [] [] [] []).

(** Shapes.py:210-247: where each shape goes; [tables] are the table boxes.  [None]:
    the shape stays in the layout; [Some k]: handed to table k. *)
Fixpoint table_of (s : shape) (k : nat) (tables : list rect) : option nat :=
  match tables with
  | [] => None
  | t :: r => if rcontains t (sh_bbox s) then Some k else table_of s (S k) r
  end.
Definition shape_target (tables : list rect) (s : shape) : option nat :=
  match sh_type s with R_BORDER | R_SHADING => None | _ => table_of s 0 tables end.
Definition shapes_kept (tables : list rect) (l : list shape) : list shape :=
  filter (fun s => match shape_target tables s with None => true | Some _ => false end) l.
Definition shapes_of_table (tables : list rect) (l : list shape) (k : nat) : list shape :=
  filter (fun s => match shape_target tables s with Some j => Nat.eqb j k | None => false end) l.
