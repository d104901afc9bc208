(** Vocabulary for the clean-up of a page (C60). *)
From Verif Require Export TextSpec CleanModel.
Open Scope Q_scope.

(** An image of the pdf: a block with one line that holds the image only. *)
Definition wrapped_image (b : tblock) : Prop := exists l k r, b_lines b = [l] /\ ln_spans l = [SImage k r].
(** Something to see: an image or a character that is not white space. *)
Definition visible_glyph (g : glyph) : Prop := match g with GChar c _ => is_white (ch_c c) = false | GImage _ _ => True end.
Definition block_glyphs (b : tblock) : list glyph := flat_map (fun l => glyphs (ln_spans l)) (b_lines b).
(** What is to be kept: a block sharing area with the page, with something to see, whose text
    runs from left to right or from bottom to top. *)
Definition to_keep (page : rect) (b : tblock) : Prop :=
  (rx0 (b_bbox b) < rx1 page /\ rx0 page < rx1 (b_bbox b) /\ ry0 (b_bbox b) < ry1 page /\ ry0 page < ry1 (b_bbox b)) /\
  (exists g, In g (block_glyphs b) /\ visible_glyph g) /\
  (forall l, In l (b_lines b) -> ln_dir l = LEFT_RIGHT \/ ln_dir l = BOTTOM_TOP).
(** What is seen, images named by their identity. *)
Inductive seen := SeenChar (c : char) (a : attrs) | SeenImage (id : nat).
Definition seen_of (g : glyph) : list seen :=
  match g with GChar c a => if is_white (ch_c c) then [] else [SeenChar c a] | GImage k _ => [SeenImage k] end.
Definition seen_in (bs : list tblock) : list seen := flat_map (fun b => flat_map seen_of (block_glyphs b)) bs.
Definition seen_floating (fl : list (option (nat * rect))) : list seen := flat_map (fun f => match f with Some (k, _) => [SeenImage k] | None => [] end) fl.
(** Lines after removal of redundant blanks, and with it the blocks. *)
Definition stripped (l : line) : line := fst (line_strip l).
Definition lines_in (bs : list tblock) : list line := flat_map b_lines bs.
(** [l] overlaps another line of [ls] for more than the threshold. *)
Definition overlaps_another (thr : Q) (ls : list line) (l : line) : Prop :=
  exists p rest, Permutation ls (p :: l :: rest) /\ TextSpec.overlapping thr l p.
Definition no_overlaps (thr : Q) (ls : list line) : Prop := forall l, ~ overlaps_another thr ls l.
(** Boxes on top of each other: some y is in both vertical ranges (edges count). *)
Definition beside (a b : rect) : Prop := exists y, ry0 a <= y <= ry1 a /\ ry0 b <= y <= ry1 b.
(** A page as extracted: [keep] are the blocks to keep, [drop] the others; images are
    wrapped; boxes are proper, and lines are proper after removal of redundant blanks. *)
Definition page_of (page : rect) (bs keep drop : list tblock) : Prop :=
  proper page /\ (forall b, In b bs -> proper (b_bbox b)) /\ (forall b, In b bs -> b_img b = true -> wrapped_image b) /\
  Permutation bs (keep ++ drop) /\ (forall b, In b keep -> to_keep page b) /\ (forall b, In b drop -> ~ to_keep page b) /\
  (forall b l, In b keep -> In l (b_lines b) -> normal_line (stripped l)).
(** Spans in their line, lines in their block. *)
Definition nested (b : tblock) : Prop :=
  rect_decimal (b_bbox b) /\ proper (b_bbox b) /\ forall l, In l (b_lines b) -> covers (b_bbox b) (ln_bbox l) /\ forall s, In s (ln_spans l) -> covers (ln_bbox l) (span_bbox s).
(** The box of a line without a margin of [gap]. *)
Definition inner (gap : Q) (l : line) : rect := mkRect (rx0 (ln_bbox l) + gap) (ry0 (ln_bbox l) + gap) (rx1 (ln_bbox l) - gap) (ry1 (ln_bbox l) - gap).
Definition inner_overlap (gap : Q) (a b : line) : Prop :=
  rx0 (inner gap a) < rx1 (inner gap b) /\ rx0 (inner gap b) < rx1 (inner gap a) /\ ry0 (inner gap a) < ry1 (inner gap b) /\ ry0 (inner gap b) < ry1 (inner gap a).
(** Boxes of two lines share more than twice the gap in width and in height, the height counted
    from the upper edge of the lower one. *)
Definition sits_on (gap : Q) (a b : line) : Prop :=
  rx0 (ln_bbox a) + 2 * gap <= rx1 (ln_bbox b) /\ rx0 (ln_bbox b) + 2 * gap <= rx1 (ln_bbox a) /\
  ((ry0 (ln_bbox a) <= ry0 (ln_bbox b) /\ ry0 (ln_bbox b) + 2 * gap < ry1 (ln_bbox a)) \/ (ry0 (ln_bbox b) <= ry0 (ln_bbox a) /\ ry0 (ln_bbox a) + 2 * gap < ry1 (ln_bbox b))).
