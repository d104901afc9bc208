(** Vocabulary for the areas left out of the search for vector graphics (C67). *)
From Verif Require Export MaskModel.
Open Scope Z_scope.

(** A picture of [w] by [h] pixels; the pixel in row [i], column [j]. *)
Definition sized (w h : Z) (g : grey) : Prop := Z.of_nat (List.length g) = h /\ forall row, In row g -> Z.of_nat (List.length row) = w.
Definition pixel (g : grey) (i j : Z) : Z := nth (Z.to_nat j) (nth (Z.to_nat i) g []) (-1).
(** The pixel is in the area, or at most two pixels away. *)
Definition near (r : rect) (i j : Z) : Prop :=
  int_of (ry0 r) - 2 <= i < int_of (ry1 r) + 2 /\ int_of (rx0 r) - 2 <= j < int_of (rx1 r) + 2.
(** The area keeps two pixels away from the left and the upper edge of the page. *)
Definition clear_of_edge (r : rect) : Prop := 2 <= int_of (rx0 r) /\ 2 <= int_of (ry0 r) /\ -2 <= int_of (rx1 r) /\ -2 <= int_of (ry1 r).
