(** Vocabulary of the paragraph properties (C26, C27, C50-C53). *)
From Verif Require Export ParaModel.
Open Scope Q_scope.

(** Distance of the text from the two sides of its container, along the text. *)
Definition side_left (h : bool) (bb container : rect) : Q := if h then rx0 bb - rx0 container else ry1 container - ry1 bb.
Definition side_right (h : bool) (bb container : rect) : Q := if h then rx1 container - rx1 bb else ry0 bb - ry0 container.
(** Offset of a line in its block, along the text. *)
Definition line_offset (h : bool) (bb : rect) (l : line) : Q := if h then rx0 (ln_bbox l) - rx0 bb else ry1 bb - ry1 (ln_bbox l).
Definition within (t : Q) (l : list Q) : Prop := forall x y, In x l -> In y l -> Qabs (x - y) <= t.

(** Edges of a physical row (lines in text order). *)
Definition first_line (r : list line) (l : line) : Prop := exists t, r = l :: t.
Definition last_line (r : list line) (l : line) : Prop := exists t, r = t ++ [l].
Definition left_edge (h : bool) (l : line) : Q := if h then rx0 (ln_bbox l) else ry1 (ln_bbox l).
Definition right_edge (h : bool) (l : line) : Q := if h then rx1 (ln_bbox l) else ry0 (ln_bbox l).
(** Two neighbours of a row are far apart. *)
Definition gap (h : bool) (a b : line) : Q := if h then rx0 (ln_bbox b) - rx1 (ln_bbox a) else ry0 (ln_bbox a) - ry1 (ln_bbox b).
Definition has_gap (h : bool) (sep : Q) (rows : list (list line)) : Prop :=
  exists r pre a b post, In r rows /\ r = pre ++ a :: b :: post /\ sep <= gap h a b.
(** The left (right) edges of these rows differ by at most t. *)
Definition lefts_within (h : bool) (t : Q) (rows : list (list line)) : Prop :=
  forall r1 r2 a b, In r1 rows -> In r2 rows -> first_line r1 a -> first_line r2 b -> Qabs (left_edge h a - left_edge h b) <= t.
Definition rights_within (h : bool) (t : Q) (rows : list (list line)) : Prop :=
  forall r1 r2 a b, In r1 rows -> In r2 rows -> last_line r1 a -> last_line r2 b -> Qabs (right_edge h a - right_edge h b) <= t.
Definition middles_within (h : bool) (t : Q) (rows : list (list line)) : Prop :=
  forall r1 r2 a a' b b', In r1 rows -> In r2 rows -> first_line r1 a -> last_line r1 a' -> first_line r2 b -> last_line r2 b' ->
    Qabs ((left_edge h a + right_edge h a') / 2 - (left_edge h b + right_edge h b') / 2) <= t.

(** Word: where text starts, measured from the left side of the container; a tab moves
    to the next stop to the right. *)
Definition word_first_line (w : wordp) : Q := wp_left w + wp_first w.
Definition word_other_lines (w : wordp) : Q := wp_left w.
Inductive lands (stops : list Q) : Q -> nat -> Q -> Prop :=
| lands_here c : lands stops c O c
| lands_tab c s k q : In s stops -> c < s -> (forall s', In s' stops -> c < s' -> s <= s') -> lands stops s k q -> lands stops c (S k) q.

(** Paragraph content: before each line some tabs, after it possibly a break. *)
Fixpoint assemble (ks : list nat) (ls : list line) (breaks : list bool) : list item :=
  match ls, ks, breaks with
  | l :: t, k :: ks', b :: bs => repeat ITab k ++ map ISpan (ln_spans l) ++ (if b then [IBreak] else []) ++ assemble ks' t bs
  | _, _, _ => []
  end.
Definition item_spans (l : list item) : list span := flat_map (fun i => match i with ISpan s => [s] | _ => [] end) l.
(** Line i starts a physical row. *)
Definition starts_row (ls : list line) (i : nat) : Prop :=
  i = O \/ exists j a b, i = S j /\ nth_error ls j = Some a /\ nth_error ls i = Some b /\ same_row a b = false.
(** Number of physical rows: one more than the changes of row. *)
Inductive row_count : list line -> nat -> Prop :=
| rc_one l : row_count [l] 1
| rc_same a b t n : same_row b a = true -> row_count (b :: t) n -> row_count (a :: b :: t) n
| rc_next a b t n : same_row b a = false -> row_count (b :: t) n -> row_count (a :: b :: t) (S n).
(** Which rows are compared: with three or more rows the first (last) one is exempt. *)
Definition left_rows (rows : list (list line)) : list (list line) := if (3 <=? length rows)%nat then tl rows else rows.
Definition right_rows (rows : list (list line)) : list (list line) := if (3 <=? length rows)%nat then removelast rows else rows.
(** No common alignment of the rows is found: a wide gap inside a row, or several rows
    with neither left edges, right edges nor middles in line. *)
Definition undecided (h : bool) (th : thresholds) (rows : list (list line)) : Prop :=
  has_gap h (th_sep th) rows \/
  ((2 <= length rows)%nat /\ ~ lefts_within h (th_left th) (left_rows rows) /\
   ~ rights_within h (th_right th) (right_rows rows) /\ ~ middles_within h (th_center th) rows).
(** The rows are left-aligned, and not right-aligned too. *)
Definition left_aligned (h : bool) (th : thresholds) (rows : list (list line)) : Prop :=
  ~ has_gap h (th_sep th) rows /\ (2 <= length rows)%nat /\
  lefts_within h (th_left th) (left_rows rows) /\ ~ rights_within h (th_right th) (right_rows rows).
(** The side rule for a block whose rows tell nothing: centred when the two distances to
    the container are nearly equal, otherwise the nearer side (one decimal). *)
Definition sides_align (h : bool) (bb container : rect) (tc : Q) (a : align) : Prop :=
  let sl := round1 (side_left h bb container) in
  let sr := round1 (side_right h bb container) in
  (Qabs (round1 ((sl - sr) / 2)) < tc /\ a = A_CENTER) \/
  (tc <= Qabs (round1 ((sl - sr) / 2)) /\ (sl <= sr \/ sl <= 0) /\ a = A_LEFT) \/
  (tc <= Qabs (round1 ((sl - sr) / 2)) /\ sr < sl /\ 0 < sl /\ a = A_RIGHT).
(** Size of a box across the text. *)
Definition extent (h : bool) (r : rect) : Q := if h then ry1 r - ry0 r else rx1 r - rx0 r.
(** Free room of a line, relative to the length of the block. *)
Definition free_room (h : bool) (bb : rect) (p : para) (l : line) (x : Q) : Prop :=
  match pa_align p with
  | A_RIGHT => x * Qabs (if h then rx1 bb - rx0 bb else ry0 bb - ry1 bb) == Qabs (left_edge h l - (if h then rx0 bb else ry1 bb)) + (pa_left_total p - pa_left p)
  | _ => x * Qabs (if h then rx1 bb - rx0 bb else ry0 bb - ry1 bb) == Qabs (right_edge h l - (if h then rx1 bb else ry0 bb)) + (pa_right_total p - pa_right p)
  end.
(** The line shows nothing but white space. *)
Definition blank_line (l : line) : Prop := forall s, In s (ln_spans l) -> exists t, s = SText t /\ forall c, In c (ts_text t) -> is_white c = true.
