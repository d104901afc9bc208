(** Vocabulary of C82: whether a page of the pdf is one page in Word. *)
From Verif Require Export PlaceSpec.
From Verif Require Import SpacingSpec.
From Verif Require DocxModel.
Open Scope Q_scope.

(** Rows of [ns] rows each: what rounding the numbers of the paragraphs to tenths of a point can add up to - half a tenth for each row,
    each space before and each space after. *)
Fixpoint rounding_total (ns : list nat) : Q := match ns with [] => 0 | n :: t => (num n + 2) / 20 + rounding_total t end.
(** The writing area of a section ends above the bottom margin; something of height [extra] set at [y] is still on the page. *)
Definition fits (sec : DocxModel.section) (y extra : Q) : Prop :=
  match DocxModel.s_margin sec with [_; _; _; bottom] => y + extra <= DocxModel.s_height sec - bottom | _ => False end.
Definition top_margin (sec : DocxModel.section) : Q := match DocxModel.s_margin sec with [_; _; top; _] => top | _ => 0 end.
(** Share [fb] of the free space below the text becomes the bottom margin; the other one is large enough for the roundings and for [extra]. *)
Definition room_for (fb extra : Q) (r : rawpage) (ts : list CleanModel.tblock) : Prop :=
  forall l, In l (lines_in ts) -> rounding_total (map (fun t => List.length (CleanModel.b_lines t)) ts) + (1 # 20) + extra <= (1 - fb) * (r_height r - ry1 (ln_bbox l)).
