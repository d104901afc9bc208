(** Vocabulary for the raw contents of a page (C61). *)
From Verif Require Export RawModel.
From Coq Require Import List.
Open Scope Z_scope.

(** Corners rounded to the same integers. *)
Definition at_place (a b : rblock) : Prop :=
  round_half_even (rx0 (rb_box a)) = round_half_even (rx0 (rb_box b)) /\ round_half_even (ry0 (rb_box a)) = round_half_even (ry0 (rb_box b)) /\
  round_half_even (rx1 (rb_box a)) = round_half_even (rx1 (rb_box b)) /\ round_half_even (ry1 (rb_box a)) = round_half_even (ry1 (rb_box b)).
Section S.
Variable hash : string -> Z.
(** The [k]-th block of the page is an image with contents of hash [h]. *)
Definition picture (bs : list rblock) (h : Z) (k : nat) : Prop :=
  exists b, nth_error bs k = Some b /\ rb_type b = 1 /\ hash (rb_bytes b) = h.
(** Contents [h] is shown on the page at the place of [r]. *)
Definition shows_at (bs : list rblock) (h : Z) (r : rblock) : Prop :=
  exists k b, picture bs h k /\ nth_error bs k = Some b /\ at_place b r.
(** The extracted image [r] is taken for the contents [h] of the page: of all contents
    shown at that place the one that occurs first on the page. *)
Definition taken_for (bs : list rblock) (r : rblock) (h : Z) : Prop :=
  shows_at bs h r /\
  forall h', shows_at bs h' r -> h' <> h -> exists k, picture bs h k /\ forall k', picture bs h' k' -> (k < k')%nat.
End S.
