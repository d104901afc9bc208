(** Vocabulary of C91: two columns of text between full-width paragraphs. *)
From Verif Require Export ColSpec.
From Verif Require Import AssignSpec.
From Coq Require Import Permutation.
From Verif Require TableSpec.
Open Scope Q_scope.

(** The blocks of text and pictures of the page, without redundant blanks, are those of a left and of a right column, more than [m] apart,
    and those above and below both columns (which are not empty), more than 6pt away from them; in each of the four beneath each other; nothing else is on the page. *)
Definition headed_page (gap m : Q) (p : rawpage) (above left right below : list CleanModel.tblock) : Prop :=
  let all := above ++ (left ++ right) ++ below in
  left <> [] /\ r_shapes p = [] /\ proper (page_box p) /\
  (forall b, In b (r_blocks p) -> proper (CleanModel.b_bbox b) /\ to_keep (page_box p) b /\ (CleanModel.b_img b = true -> wrapped_image b /\ wide_lines gap all)) /\
  Permutation (map CleanModel.block_strip (r_blocks p)) all /\ Forall paragraph all /\ ForallOrdPairs other_block all /\
  top_down (map ln_bbox (lines_in above)) /\ top_down (map ln_bbox (lines_in left)) /\ top_down (map ln_bbox (lines_in right)) /\ top_down (map ln_bbox (lines_in below)) /\
  (forall l k, In l (lines_in left) -> In k (lines_in right) -> rx1 (ln_bbox l) + m < rx0 (ln_bbox k)) /\
  (forall t u, In t above -> In u (left ++ right) -> ry1 (CleanModel.b_bbox t) + 6 < ry0 (CleanModel.b_bbox u)) /\
  (forall t u, In t below -> In u (left ++ right) -> ry1 (CleanModel.b_bbox u) + 6 < ry0 (CleanModel.b_bbox t)) /\
  (forall l s, In l (lines_in (left ++ right)) -> In s (ln_spans l) -> proper (span_bbox s)).
(** The lines outside of the columns go across the middle of [area]. *)
Definition across_lines (area : rect) (ts : list CleanModel.tblock) : Prop := forall l, In l (lines_in ts) -> TableSpec.spanning area (ln_bbox l).
