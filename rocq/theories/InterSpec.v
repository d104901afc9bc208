(** Vocabulary: overlap of boxes. *)
From Verif Require Import Rect.
From Coq Require Import List Relations.
Open Scope Q_scope.

(** Common interior points. *)
Definition overlap_open (a b : rect) : Prop :=
  rx0 a < rx1 b /\ rx0 b < rx1 a /\ ry0 a < ry1 b /\ ry0 b < ry1 a.
(** Common points, counting the vertical edges. *)
Definition overlap_x_closed (a b : rect) : Prop :=
  rx0 a <= rx1 b /\ rx0 b <= rx1 a /\ ry0 a < ry1 b /\ ry0 b < ry1 a.
(** Positions of overlapping boxes in a family. *)
Definition overlapping (R : rect -> rect -> Prop) (rs : list rect) (i j : nat) : Prop :=
  exists a b, nth_error rs i = Some a /\ nth_error rs j = Some b /\ R a b.
(** Left edges have x-coordinates of their own: no edge of another box has the same x. *)
Definition left_edges_distinct (rs : list rect) : Prop :=
  forall i j a b, i <> j -> nth_error rs i = Some a -> nth_error rs j = Some b ->
    ~ rx0 a == rx0 b /\ ~ rx0 a == rx1 b.

(** The left edge of box number i has an x-coordinate of its own, or no box starts further left. *)
Definition clear_left (rs : list rect) (i : nat) (a : rect) : Prop :=
  (forall j b, j <> i -> nth_error rs j = Some b -> ~ rx0 a == rx0 b /\ ~ rx0 a == rx1 b) \/ (forall b, In b rs -> rx0 a <= rx0 b).
(** Boxes with common interior points, of which the one that starts further right (both, if they
    start together) has a clear left edge. *)
Definition clearly_overlapping (rs : list rect) (i j : nat) : Prop :=
  exists a b, nth_error rs i = Some a /\ nth_error rs j = Some b /\ overlap_open a b /\
    (rx0 b <= rx0 a -> clear_left rs i a) /\ (rx0 a <= rx0 b -> clear_left rs j b).

(** With tolerances: the horizontal gap is at most 2dx (less than 2dx) and the vertical
    gap less than 2dy. *)
Definition near_closed (dx dy : Q) (a b : rect) : Prop :=
  rx0 a - rx1 b <= 2 * dx /\ rx0 b - rx1 a <= 2 * dx /\ ry0 a - ry1 b < 2 * dy /\ ry0 b - ry1 a < 2 * dy.
Definition near_open (dx dy : Q) (a b : rect) : Prop :=
  rx0 a - rx1 b < 2 * dx /\ rx0 b - rx1 a < 2 * dx /\ ry0 a - ry1 b < 2 * dy /\ ry0 b - ry1 a < 2 * dy.
Definition left_edges_apart (dx : Q) (rs : list rect) : Prop :=
  forall i j a b, i <> j -> nth_error rs i = Some a -> nth_error rs j = Some b ->
    ~ rx0 a == rx0 b /\ ~ rx0 a - rx1 b == 2 * dx.
