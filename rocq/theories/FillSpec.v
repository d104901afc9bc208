(** Vocabulary of C83: where Word sets the paragraphs in the cells of a table. *)
From Verif Require Export TabSpec PlaceSpec.
From Verif Require WordModel WordSpec GridSpec.
Open Scope Q_scope.

(** Height of [m] rows of a Word table, from row [i] on, in English Metric Units (12700 are a point); Word keeps to it exactly, and hides what
    does not fit. *)
Definition rows_height (hs : list Z) (i m : nat) : Z := fold_right Z.add 0%Z (firstn m (skipn i hs)).
(** Word sets the paragraphs [ws], one for each of [ts], below each other, from [top] on, between [left] and [right]: only text, rows of a fixed height;
    if it was between [left] and [right], it is in its place across; each ends where it did on the page, up to rounding. *)
Definition set_in (tol top left right : Q) (ts : list CleanModel.tblock) (ws : list ParaModel.wordp) : Prop :=
  let rows := map (fun t => List.length (CleanModel.b_lines t)) ts in
  List.length ws = List.length ts /\
  forall k w t, nth_error ws k = Some w -> nth_error ts k = Some t ->
    (text_only [t] -> ParaModel.wp_exact w = true) /\
    ((forall l, In l (CleanModel.b_lines t) -> left <= rx0 (ln_bbox l) /\ rx1 (ln_bbox l) <= right) -> across_place tol left right (CleanModel.b_lines t) w) /\
    exists e y drift, nth_error (row_ends top ws rows) k = Some e /\ nth_error (roundings 0 rows) k = Some drift /\ bottom_of (CleanModel.b_lines t) y /\ Qabs (e - y) <= drift.
(** The row of text that ends at [e] is inside of rows [i] to [i + m - 1], whose upper line is at [top]; lines of width [w]: Word measures the height
    of rows from the middle of a line to the middle of the next one. *)
Definition not_clipped (hs : list Z) (i m : nat) (w top e : Q) : Prop := 12700 * (e + w / 2 - top) <= inject_Z (rows_height hs i m).
(** What is lost of the height of the rows [i] to [i + m - 1] of a table at the end of its page ([last]), C63. *)
Definition loss (g : GridSpec.grid) (last : bool) (i m : nat) : Q := if last && Nat.eqb (i + m) (GridSpec.g_rows g) then 1 else 0.
