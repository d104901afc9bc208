(** Vocabulary for statements about boxes and collections. *)
From Verif Require Import GeomModel.
Open Scope Q_scope.

(** Elements handed to a collection by a history of calls. *)
Definition offered (o : coll_op) : list elem :=
  match o with
  | Append e => [e]
  | Extend es => es
  | Reset es => es
  | Insert _ e => [e]
  | Pop _ => []
  end.
Definition all_offered (ops : list coll_op) : list elem := flat_map offered ops.
(** Boxes as produced by [update_bbox]: ordered, one decimal. *)
Definition normal_box (r : rect) : Prop := valid r /\ rect_decimal r.

(** Length of the common part of two intervals (negative if they are apart). *)
Definition common (a0 a1 b0 b1 : Q) : Q := qmin a1 b1 - qmax a0 b0.

(** Order of two keys, component by component. *)
Definition before3 (a b c a' b' c' : Q) : Prop :=
  a < a' \/ (a == a' /\ (b < b' \/ (b == b' /\ c <= c'))).
(** Reading order (top to bottom, then left to right; for vertical text: left to
    right, then by the lower edge). *)
Definition reading_before (horizontal : bool) (p q : elem) : Prop :=
  let a := e_bbox p in let b := e_bbox q in
  if horizontal then before3 (ry0 a) (rx0 a) (rx1 a) (ry0 b) (rx0 b) (rx1 b)
  else before3 (rx0 a) (ry1 a) (ry0 a) (rx0 b) (ry1 b) (ry0 b).
Definition line_before (horizontal : bool) (p q : elem) : Prop :=
  let a := e_bbox p in let b := e_bbox q in
  if horizontal then before3 (rx0 a) (ry0 a) (rx1 a) (rx0 b) (ry0 b) (rx1 b)
  else before3 (ry1 a) (rx0 a) (ry0 a) (ry1 b) (rx0 b) (ry0 b).
(** All lines written from left to right. *)
Definition all_horizontal (l : list elem) : Prop := forall e, In e l -> e_dir e = LEFT_RIGHT.
(** Ratio of [e]'s area inside [b]. *)
Definition inside_ratio (e : elem) (b : rect) : Q := area (rinter (e_bbox e) b) / area (e_bbox e).
