(** Vocabulary of the path properties (C38, C57). *)
From Verif Require Export PathModel.
From Coq Require Export Permutation.
Open Scope Q_scope.

Definition same_point (p q : point) : Prop := fst p == fst q /\ snd p == snd q.
Definition drawable (i : ditem) : bool := match i with IOther => false | _ => true end.
(** Item [b] starts where [a] ends (rectangles have no ends). *)
Definition connected (a b : ditem) : Prop := exists p q, it_end a = Some p /\ it_start b = Some q /\ same_point p q.
Definition linear (i : ditem) : Prop := match i with ILine _ _ | ICurve _ _ _ _ => True | _ => False end.
(** Neighbours in a list are related. *)
Inductive chained {A} (R : A -> A -> Prop) : list A -> Prop :=
| ch_nil : chained R []
| ch_one a : chained R [a]
| ch_cons a b l : R a b -> chained R (b :: l) -> chained R (a :: b :: l).
(** One rectangle, or a connected run of lines and curves. *)
Definition good_group (g : list ditem) : Prop :=
  (exists r, g = [IRect r]) \/ (g <> [] /\ (forall i, In i g -> linear i) /\ chained connected g).
(** Two neighbouring groups are not connected. *)
Definition apart (g g' : list ditem) : Prop := forall a b t t', g = t ++ [a] -> g' = b :: t' -> ~ connected a b.

(** Lines drawn for an item; a curve has none; those of a rectangle are twice as wide. *)
Definition edges (w : Q) (i : ditem) : list raw_line :=
  match i with
  | ILine p q => [(p, q, w)]
  | IRect r => [((rx0 r, ry0 r), (rx1 r, ry0 r), w * 2); ((rx1 r, ry0 r), (rx1 r, ry1 r), w * 2);
                ((rx1 r, ry1 r), (rx0 r, ry1 r), w * 2); ((rx0 r, ry1 r), (rx0 r, ry0 r), w * 2)]
  | _ => []
  end.
Definition lines_of_path (p : path) : list raw_line := flat_map (fun x => match x with RLine l _ => [l] | RFill _ _ => [] end) (path_shapes p).
Definition fills_of_path (p : path) : list rect := flat_map (fun x => match x with RFill b _ => [b] | RLine _ _ => [] end) (path_shapes p).
(** Line closing a group of at least two items. *)
Definition closing_line (w : Q) (g : list ditem) (l : list raw_line) : Prop :=
  ((length g <= 1)%nat /\ l = []) \/
  exists a b t p q, g = a :: t ++ [b] /\ it_end b = Some p /\ it_start a = Some q /\ l = [(p, q, w)].
(** All the points of an item. *)
Definition points_of (i : ditem) : list point :=
  match i with
  | ILine p q => [p; q]
  | ICurve a b c d => [a; b; c; d]
  | IRect r => [(rx0 r, ry0 r); (rx1 r, ry1 r)]
  | IOther => []
  end.
Definition axis_parallel (i : ditem) : Prop :=
  match i with
  | ILine p q => fst p == fst q \/ snd p == snd q
  | ICurve _ _ _ _ => False
  | _ => True
  end.
