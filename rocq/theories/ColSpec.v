(** Vocabulary of C90: a page whose text is set in two columns. *)
From Verif Require Export WholeSpec TabSpec.
From Verif Require Import AssignSpec.
From Coq Require Import Permutation.
From Verif Require TableSpec WordModel WordSpec TreeModel TreeSpec.
Open Scope Q_scope.

(** The blocks of text and pictures of the page, without redundant blanks, are those of a left and of a right column, in each of them
    beneath each other, more than [m] apart from those of the other; nothing else is on the page. *)
Definition column_page (gap m : Q) (p : rawpage) (left right : list CleanModel.tblock) : Prop :=
  r_shapes p = [] /\ proper (page_box p) /\
  (forall b, In b (r_blocks p) -> proper (CleanModel.b_bbox b) /\ to_keep (page_box p) b /\ (CleanModel.b_img b = true -> wrapped_image b /\ wide_lines gap (left ++ right))) /\
  Permutation (map CleanModel.block_strip (r_blocks p)) (left ++ right) /\ Forall paragraph (left ++ right) /\ ForallOrdPairs other_block (left ++ right) /\
  top_down (map ln_bbox (lines_in left)) /\ top_down (map ln_bbox (lines_in right)) /\
  (forall l k, In l (lines_in left) -> In k (lines_in right) -> rx1 (ln_bbox l) + m < rx0 (ln_bbox k)) /\
  (forall l s, In l (lines_in (left ++ right)) -> In s (ln_spans l) -> proper (span_bbox s)).
(** The two columns are the two halves of [area]; neither is empty. *)
Definition in_halves (area : rect) (left right : list CleanModel.tblock) : Prop :=
  left <> [] /\ right <> [] /\ 42 # 5 < rx1 area - rx0 area /\
  (forall l, In l (lines_in left) -> Rect.covers area (ln_bbox l) /\ TableSpec.in_left area (ln_bbox l)) /\
  (forall l, In l (lines_in right) -> Rect.covers area (ln_bbox l) /\ TableSpec.in_right area (ln_bbox l)).
(** A row of text that goes through both columns does not lie almost in one of them. *)
Definition balanced (area b : rect) : Prop :=
  TableSpec.in_left area b \/ TableSpec.in_right area b \/
  let w := (55 # 1000) * (rx1 b - rx0 b) + (1 # 10) in w <= TableSpec.center area - rx0 b /\ w <= rx1 b - TableSpec.center area.
(** No border at all. *)
Definition borderless (p : WordModel.tcpr) : Prop := WordModel.pr_top p = None /\ WordModel.pr_end p = None /\ WordModel.pr_bottom p = None /\ WordModel.pr_start p = None.
(** The Word table [t] of one row and two cells without borders or shading shows the left column in the first and the right one in the second. *)
Definition columns_shown (left right : list CleanModel.tblock) (t : list (list (WordModel.tc TreeModel.ditem))) : Prop :=
  List.length t = 1%nat /\ forall q, (q < 2)%nat -> WordSpec.shown_at t 0 q = Some (0%nat, q) /\
    exists c, WordSpec.over t 0 q = Some (q, c) /\ WordModel.t_span c = 1%nat /\ borderless (WordModel.t_pr c) /\ WordModel.pr_shd (WordModel.t_pr c) = [] /\
      flat_map TreeSpec.entry (WordModel.t_body c) = entries (if Nat.eqb q 0 then left else right).
