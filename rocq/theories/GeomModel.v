(** Model of pdf2docx/common/Element.py and of the element-collection operations
    of pdf2docx/common/Collection.py. *)
From Verif Require Export Rect PySort PyBase.
Open Scope Q_scope.

(** share.py:35-40 [TextDirection]. *)
Inductive direction := IGNORE | LEFT_RIGHT | BOTTOM_TOP.
Definition dir_eqb (a b : direction) : bool :=
  match a, b with
  | IGNORE, IGNORE | LEFT_RIGHT, LEFT_RIGHT | BOTTOM_TOP, BOTTOM_TOP => true
  | _, _ => false
  end.
(** share.py:69-70 [is_horizontal_text]. *)
Definition is_horizontal (d : direction) : bool := dir_eqb d LEFT_RIGHT.

(** An element: bounding box, text direction, and an identity [e_id] standing
    for everything else the object carries. *)
Record elem := mkElem { e_id : nat; e_bbox : rect; e_dir : direction }.

(** Element.py:62-64 [__bool__]. *)
Definition elem_bool (e : elem) : bool := rect_bool (e_bbox e).
(** Element.py:93-105 [get_expand_bbox]. *)
Definition expand_bbox (e : elem) (dt : Q) : rect := rplus (e_bbox e) (- dt) (- dt) dt dt.
(** Element.py:108-115 [update_bbox]. *)
Definition update_bbox (e : elem) (r : rect) : elem := mkElem (e_id e) (rround r) (e_dir e).
(** Element.py:118-127 [union_bbox], on boxes. *)
Definition union_bbox (self other : rect) : rect := rround (runion self other).

(** constants.py: MINOR_DIST = 1.0. *)
Definition MINOR_DIST : Q := 1.
(** Element.py:133-160 [contains]. *)
Definition contains (self e : rect) (threshold : Q) : bool :=
  let S := area e in
  if qeq S 0 then false
  else let factor := round2 (area (rinter self e) / area e) in
       if qlt factor threshold then false
       else if qle (rheight self) (rwidth self) then qle (rwidth e) (rwidth self + MINOR_DIST)
       else qle (rheight e) (rheight self + MINOR_DIST).

(** Element.py:163-185 [get_main_bbox]; [None] is the result None.  The division
    is by a non-zero number for ordered boxes (GeomProof.main_bbox_divisor). *)
Definition get_main_bbox (b1 b2 : rect) (threshold : Q) : option rect :=
  let b := rinter b1 b2 in
  if rect_bool b then
    let a := area b in
    let factor := if qeq a 0 then 1 # 1000000 else a / qmin (area b1) (area b2) in
    if qle threshold factor then Some (runion b1 b2) else None
  else None.

(** [bbox[idx]] and [bbox[idx+2]]. *)
Definition lo (vertical_axis : bool) (r : rect) : Q := if vertical_axis then ry0 r else rx0 r.
Definition hi (vertical_axis : bool) (r : rect) : Q := if vertical_axis then ry1 r else rx1 r.
(** Element.py:220-224 and 252-255. *)
Definition overlap_enough (axis : bool) (self e : rect) (factor : Q) : bool :=
  let L1 := hi axis self - lo axis self in
  let L2 := hi axis e - lo axis e in
  let L := qmax (hi axis self) (hi axis e) - qmin (lo axis self) (lo axis e) in
  qle (factor * qmin L1 L2) (L1 + L2 - L).
(** Element.py:188-224. *)
Definition vertically_align_with (self e : elem) (factor : Q) (text_direction : bool) : bool :=
  if negb (elem_bool e) || negb (elem_bool self) then false
  else let horizontal := if text_direction then is_horizontal (e_dir self) else true in
       overlap_enough (negb horizontal) (e_bbox self) (e_bbox e) factor.
(** Element.py:227-255. *)
Definition horizontally_align_with (self e : elem) (factor : Q) (text_direction : bool) : bool :=
  if negb (elem_bool e) || negb (elem_bool self) then false
  else let horizontal := if text_direction then is_horizontal (e_dir self) else true in
       overlap_enough horizontal (e_bbox self) (e_bbox e) factor.
(** Element.py:258-285. *)
Definition in_same_row (self e : elem) : bool :=
  if negb (elem_bool e) || negb (dir_eqb (e_dir self) (e_dir e)) then false
  else let axis := is_horizontal (e_dir self) in
       let c1 := (lo axis (e_bbox self) + hi axis (e_bbox self)) / 2 in
       let c2 := (lo axis (e_bbox e) + hi axis (e_bbox e)) / 2 in
       qle c1 (hi axis (e_bbox e)) && qle c2 (hi axis (e_bbox self)).

(* ------------------------------------------------------------------ *)
(** * Collections *)

(** Collection.py:31-37 [bbox]. *)
Definition coll_bbox (l : list elem) : rect :=
  rround (fold_left (fun r e => runion r (e_bbox e)) l rect0).

(** Collection.py:132-141 [text_direction] (every element has one). *)
Definition coll_dir (l : list elem) : direction :=
  match l with
  | [] => LEFT_RIGHT
  | e :: t => if forallb (fun x => dir_eqb (e_dir x) (e_dir e)) t then e_dir e else LEFT_RIGHT
  end.

(** Collection.py:220-228. *)
Definition reading_key (horizontal : bool) (e : elem) : list Q :=
  let b := e_bbox e in
  if horizontal then [ry0 b; rx0 b; rx1 b] else [rx0 b; ry1 b; ry0 b].
Definition sort_in_reading_order (l : list elem) : list elem :=
  sort_key (reading_key (is_horizontal (coll_dir l))) l.
(** Collection.py:231-239. *)
Definition line_key (horizontal : bool) (e : elem) : list Q :=
  let b := e_bbox e in
  if horizontal then [rx0 b; ry0 b; rx1 b] else [ry1 b; rx0 b; ry0 b].
Definition sort_in_line_order (l : list elem) : list elem :=
  sort_key (line_key (is_horizontal (coll_dir l))) l.

(** Collection.py:242-250. *)
Definition contained_in_bbox (l : list elem) (b : rect) : list elem :=
  filter (fun e => rcontains b (e_bbox e)) l.

(** Collection.py:253-273; [None] is ZeroDivisionError. *)
Fixpoint split_with_intersection (l : list elem) (b : rect) (threshold : Q) : option (list elem * list elem) :=
  match l with
  | [] => Some ([], [])
  | e :: t =>
      let a := area (e_bbox e) in
      if qeq a 0 then None
      else let factor := round2 (area (rinter (e_bbox e) b) / a) in
           match split_with_intersection t b threshold with
           | None => None
           | Some (l1, l2) => if qle threshold factor then Some (e :: l1, l2) else Some (l1, e :: l2)
           end
  end.

(** A collection with the bounding box of its owner ([None]: no parent). *)
Record coll := mkColl { c_items : list elem; c_parent : option rect }.
(** Collection.py:154-157. *)
Definition touch_parent (c : coll) (e : elem) : option rect :=
  match c_parent c with None => None | Some p => Some (union_bbox p (e_bbox e)) end.
(** Collection.py:160-172 (the [parent] attribute of the element is not modelled). *)
Definition append (c : coll) (e : elem) : coll :=
  if elem_bool e then mkColl (c_items c ++ [e]) (touch_parent c e) else c.
(** Collection.py:175-178. *)
Definition extend (c : coll) (es : list elem) : coll := fold_left append es c.
(** Collection.py:181-192. *)
Definition reset (c : coll) (es : list elem) : coll := extend (mkColl [] (c_parent c)) es.
(** [list.insert(nth, e)]. *)
Definition insert_pos {A} (l : list A) (nth : Z) : nat :=
  let n := zlen l in
  if (nth <? 0)%Z then Z.to_nat (Z.max 0 (n + nth)) else Z.to_nat (Z.min n nth).
(** Collection.py:195-205. *)
Definition insert (c : coll) (nth : Z) (e : elem) : coll :=
  if elem_bool e then
    let k := insert_pos (c_items c) nth in
    mkColl (firstn k (c_items c) ++ e :: skipn k (c_items c)) (touch_parent c e)
  else c.
(** Collection.py:208-217; an IndexError leaves the collection unchanged. *)
Definition pop (c : coll) (nth : Z) : coll :=
  match norm_index (zlen (c_items c)) nth with
  | None => c
  | Some k => mkColl (firstn k (c_items c) ++ skipn (S k) (c_items c)) (c_parent c)
  end.

Inductive coll_op := Append (e : elem) | Extend (es : list elem) | Reset (es : list elem)
                   | Insert (nth : Z) (e : elem) | Pop (nth : Z).
Definition coll_step (c : coll) (o : coll_op) : coll :=
  match o with
  | Append e => append c e
  | Extend es => extend c es
  | Reset es => reset c es
  | Insert n e => insert c n e
  | Pop n => pop c n
  end.
Definition coll_run (c : coll) (ops : list coll_op) : coll := fold_left coll_step ops c.
