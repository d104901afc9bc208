(** Vocabulary of the text properties (C23-C25, C49, C50). *)
From Verif Require Export TextModel.
Open Scope Q_scope.

(** What a reader sees: characters with their font attributes, and inline images. *)
Inductive glyph := GChar (c : char) (a : attrs) | GImage (id : nat) (b : rect).
Definition span_glyphs (s : span) : list (glyph * list style) :=
  match s with
  | SText t => map (fun c => (GChar c (ts_attrs t), ts_style t)) (ts_chars t)
  | SImage k b => [(GImage k b, [])]
  end.
(** The glyphs of a sequence of spans, each with its text styles. *)
Definition styled (ss : list span) : list (glyph * list style) := flat_map span_glyphs ss.
Definition glyphs (ss : list span) : list glyph := map fst (styled ss).
(** Same glyphs in the same order; styles may have been added. *)
Definition style_extends (a b : glyph * list style) : Prop := fst a = fst b /\ exists more, snd b = snd a ++ more.
Definition only_styles_added (before after : list (glyph * list style)) : Prop := Forall2 style_extends before after.

(** Box of a piece of text: positive across the reading direction, not inverted along it,
    one decimal. *)
Definition text_box (horizontal : bool) (b : rect) : Prop :=
  rect_decimal b /\ if horizontal then ry0 b < ry1 b /\ rx0 b <= rx1 b else rx0 b < rx1 b /\ ry0 b <= ry1 b.
Definition good_span (horizontal : bool) (s : span) : Prop :=
  match s with SText t => text_box horizontal (ts_bbox t) | SImage _ b => rect_bool b = true end.
Definition good_line (l : line) : Prop := forall s, In s (ln_spans l) -> good_span (is_horizontal (ln_dir l)) s.

(** Characters laid out along the reading direction, without overlaps, in one row. *)
Definition in_row (horizontal : bool) (c : char) (y0 y1 : Q) : Prop :=
  proper (ch_bbox c) /\ lo horizontal (ch_bbox c) == y0 /\ hi horizontal (ch_bbox c) == y1.
Definition follows (horizontal : bool) (a b : char) : Prop :=
  if horizontal then rx1 (ch_bbox a) <= rx0 (ch_bbox b) else ry1 (ch_bbox b) <= ry0 (ch_bbox a).
Definition laid_out (horizontal : bool) (cs : list char) : Prop :=
  (exists y0 y1, forall c, In c cs -> in_row horizontal c y0 y1) /\
  (forall i j a b, (i < j)%nat -> nth_error cs i = Some a -> nth_error cs j = Some b -> follows horizontal a b).
(** More than half of the character (along the reading direction) lies in the shape, and
    the shape reaches it across. *)
Definition half_covered (horizontal : bool) (r : rect) (c : char) : Prop :=
  let b := ch_bbox c in
  lo horizontal b <= hi horizontal r /\ lo horizontal r <= hi horizontal b /\
  (hi (negb horizontal) b - lo (negb horizontal) b) / 2 <
    qmin (hi (negb horizontal) b) (hi (negb horizontal) r) - qmax (lo (negb horizontal) b) (lo (negb horizontal) r).

(** Lines kept by joining: those not overlapping their predecessor. *)
Definition overlapping (thr : Q) (l pre : line) : Prop :=
  0 < area (rinter (ln_bbox l) (ln_bbox pre)) /\
  thr * qmin (area (ln_bbox l)) (area (ln_bbox pre)) <= area (rinter (ln_bbox l) (ln_bbox pre)).
Inductive kept_lines (thr : Q) : line -> list line -> list line -> Prop :=
| kept_nil pre : kept_lines thr pre [] []
| kept_drop pre l t k : overlapping thr l pre -> kept_lines thr l t k -> kept_lines thr pre (l :: t) k
| kept_keep pre l t k : ~ overlapping thr l pre -> kept_lines thr l t k -> kept_lines thr pre (l :: t) (l :: k).

(** White space. *)
Definition white_char (c : char) : Prop := is_white (ch_c c) = true.
Definition white_glyph (g : glyph * list style) : Prop := match fst g with GChar c _ => white_char c | GImage _ _ => False end.
(** A line as extracted: positive extent, one-decimal boxes, spans with a box. *)
Definition normal_line (l : line) : Prop := proper (ln_bbox l) /\ rect_decimal (ln_bbox l) /\
  forall s, In s (ln_spans l) -> valid (span_bbox s) /\ rect_decimal (span_bbox s) /\ span_bool s = true.
(** A resulting line stands for a group of lines: their spans in order. *)
Definition joined_from (r : line) (g : list line) : Prop :=
  ln_spans r = concat (map ln_spans g) /\ match g with [] => False | l :: _ => ln_dir r = ln_dir l /\ covers (ln_bbox r) (ln_bbox l) end.
(** Within a group: pairwise in the same row, and every line but the first follows its
    predecessor in the sorted list closely. *)
Definition close_pred (merging : Q) (sorted : list line) (b : line) : Prop :=
  exists i p, nth_error sorted i = Some p /\ nth_error sorted (S i) = Some b /\ same_row b p = true /\ qabs (rx0 (ln_bbox b) - rx1 (ln_bbox p)) <= merging.
Definition row_pairs (g : list line) : Prop := forall i j a b, (i < j)%nat -> nth_error g i = Some a -> nth_error g j = Some b -> same_row b a = true.
Definition good_group (merging : Q) (sorted g : list line) : Prop :=
  g <> [] /\ row_pairs g /\ forall b, In b (tl g) -> close_pred merging sorted b.


(** Text arranged in clear rows (columns for vertical text), given from the top (left):
    lines of a row are pairwise in one row; any line of a later row starts further down
    (right) and is not in one row with a line of an earlier one. *)
Definition row_start (horizontal : bool) (l : line) : Q := if horizontal then ry0 (ln_bbox l) else rx0 (ln_bbox l).
Definition clear_rows (horizontal : bool) (rows : list (list line)) : Prop :=
  (forall r, In r rows -> r <> [] /\ forall a b, In a r -> In b r -> same_row a b = true) /\
  ForallOrdPairs (fun r1 r2 => forall a b, In a r1 -> In b r2 -> row_start horizontal a < row_start horizontal b /\ same_row b a = false) rows.
