(** Vocabulary of the table properties (C28-C30, C54-C56). *)
From Verif Require Export TableModel.
From Coq Require Export Permutation Sorted.
Open Scope Q_scope.

(** Coordinate of a horizontal (h) or vertical stroke, to one decimal. *)
Definition coord (h : bool) (s : shape) : Q := round1 (if h then sh_y0 s else sh_x0 s).
Definition near (c a b : Q) : Prop := Qabs (a - b) <= c.
Definition nearb (c a b : Q) : bool := Qle_bool (Qabs (a - b)) c.
(** The strokes form clear rows (columns): being near is transitive. *)
Definition clear_lines (h : bool) (c : Q) (l : list shape) : Prop :=
  forall a b d, In a l -> In b l -> In d l -> near c (coord h a) (coord h b) -> near c (coord h b) (coord h d) -> near c (coord h a) (coord h d).
(** Any two members, at different places, are related. *)
Inductive pairwise {A} (R : A -> A -> Prop) : list A -> Prop :=
| pw_nil : pairwise R []
| pw_cons x l : (forall y, In y l -> R x y) -> pairwise R l -> pairwise R (x :: l).
Definition keys_distinct (d : dict) : Prop := pairwise (fun a b => ~ a == b) (keys d).
(** Part of a side covered by a shape, up to one point. *)
Definition covers (h : bool) (s : shape) (x : Q) : Prop :=
  (if h then rx0 (sh_bbox s) else ry0 (sh_bbox s)) - 1 <= x <= (if h then rx1 (sh_bbox s) else ry1 (sh_bbox s)) + 1.

(** Rows and columns of a parsed structure. *)
Definition nrows (st : structure) : nat := (length (st_ys st) - 1)%nat.
Definition ncols (st : structure) : nat := (length (st_xs st) - 1)%nat.
Definition cell_at (st : structure) (i j : nat) (c : cell) : Prop := exists r, nth_error (st_cells st) i = Some r /\ nth_error r j = Some c.
(** A vertical stroke on the left of grid position (i, j) crosses the middle of row i; a
    horizontal stroke on its top crosses the middle of column j. *)
Definition left_border (st : structure) (i j : nat) : Prop :=
  exists x y0 y1 v s, nth_error (st_xs st) j = Some x /\ nth_error (st_ys st) i = Some y0 /\ nth_error (st_ys st) (S i) = Some y1 /\
    In (x, v) (st_v st) /\ In s v /\ sh_y0 s < (y0 + y1) / 2 < sh_y1 s.
Definition top_border (st : structure) (i j : nat) : Prop :=
  exists y x0 x1 v s, nth_error (st_ys st) i = Some y /\ nth_error (st_xs st) j = Some x0 /\ nth_error (st_xs st) (S j) = Some x1 /\
    In (y, v) (st_h st) /\ In s v /\ sh_x0 s < (x0 + x1) / 2 < sh_x1 s.
(** Every list of strokes is ordered by starting point. *)
Definition ordered_strokes (h : bool) (d : dict) : Prop :=
  forall k v, In (k, v) d -> StronglySorted (fun a b => (if h then sh_x0 a else sh_y0 a) <= (if h then sh_x0 b else sh_y0 b)) v.

(** A merge count: 0 for an absent leading border, otherwise the run up to the next
    present border or the end. *)
Definition run_length (present : nat -> Prop) (len j n : nat) : Prop :=
  (~ present j /\ n = O) \/
  (present j /\ (1 <= n)%nat /\ (j + n <= len)%nat /\ (forall k, (j < k < j + n)%nat -> ~ present k) /\ ((j + n < len)%nat -> present (j + n)%nat)).

(** Rectangular regions of grid positions: (top, left, rows, columns). *)
Definition region := (nat * nat * nat * nat)%type.
Definition in_region (g : region) (p q : nat) : Prop :=
  let '(i, j, m, n) := g in (i <= p < i + m)%nat /\ (j <= q < j + n)%nat.
Definition reg_top (g : region) : nat := let '(i, _, _, _) := g in i.
Definition reg_left (g : region) : nat := let '(_, j, _, _) := g in j.
(** [g p q] is the region of position (p, q); regions partition the grid. *)
Definition partition (nr nc : nat) (g : nat -> nat -> region) : Prop :=
  forall p q, (p < nr)%nat -> (q < nc)%nat ->
    in_region (g p q) p q /\ forall p' q', in_region (g p q) p' q' -> (p' < nr)%nat /\ (q' < nc)%nat /\ g p' q' = g p q.
(** The positions taken by cell (i, j). *)
Definition takes (c : cell) (i j p q : nat) : Prop := in_region (i, j, ce_rows c, ce_cols c) p q.

(** Strokes as constructed from drawing data: ordered end points, box rounded. *)
Definition drawn (s : shape) : Prop := valid (sh_bbox s) /\ rect_decimal (sh_bbox s) /\ sh_x0 s <= sh_x1 s /\ sh_y0 s <= sh_y1 s.
(** The box spanned by horizontal and vertical strokes, to one decimal. *)
Definition spanned (strokes : list shape) (r : rect) : Prop :=
  (exists s, In s strokes /\ horizontal s = true /\ rx0 r == round1 (sh_x0 s)) /\ (exists s, In s strokes /\ horizontal s = true /\ rx1 r == round1 (sh_x1 s)) /\
  (exists s, In s strokes /\ horizontal s = false /\ vertical s = true /\ ry0 r == round1 (sh_y0 s)) /\ (exists s, In s strokes /\ horizontal s = false /\ vertical s = true /\ ry1 r == round1 (sh_y1 s)) /\
  (forall s, In s strokes -> horizontal s = true -> rx0 r <= round1 (sh_x0 s) /\ round1 (sh_x1 s) <= rx1 r) /\
  (forall s, In s strokes -> horizontal s = false -> vertical s = true -> ry0 r <= round1 (sh_y0 s) /\ round1 (sh_y1 s) <= ry1 r).
(** A line of strokes [v] covers [a, b], up to one point. *)
Definition covered (h : bool) (v : list shape) (a b : Q) : Prop := forall x, a <= x <= b -> exists s, In s v /\ covers h s x.
(** A side of the table at [at_], from [a] to [b], has a border line within [w]. *)
Definition has_side (h : bool) (d : dict) (w at_ a b : Q) : Prop := exists k v, In (k, v) d /\ Qabs (at_ - k) <= w /\ covered h v a b.

(** Length shared by a stroke and a side of a cell. *)
Definition shared (h : bool) (a b : Q) (s : shape) : Q := qmin b (s_to h s) - qmax a (s_from h s).
Fixpoint qsum (l : list Q) : Q := match l with [] => 0 | x :: t => x + qsum t end.
(** The border of a cell side [a, b] chosen from the strokes [v] on that side. *)
Definition border_rule (h : bool) (a b : Q) (v : list shape) (s : shape) : Prop :=
  let cand := filter (fun u => Qle_bool 5 (shared h a b u)) v in
  let good := cand <> [] /\ (3 # 4) * (b - a) <= qsum (map (shared h a b) cand) /\ (forall u u', In u cand -> In u' cand -> sh_color u = sh_color u') in
  (good /\ hd_error cand = Some s) \/ (~ good /\ s = empty_stroke).
(** The horizontal strokes, and the other vertical ones. *)
Definition dir_part (h : bool) (strokes : list shape) : list shape :=
  if h then filter horizontal strokes else filter (fun s => negb (horizontal s) && vertical s) strokes.
Definition lines_of (h : bool) (st : structure) : dict := if h then st_h st else st_v st.
(** First (top, left) and last (bottom, right) side of a box. *)
Definition side0 (h : bool) (r : rect) : Q := if h then ry0 r else rx0 r.
Definition side1 (h : bool) (r : rect) : Q := if h then ry1 r else rx1 r.
Fixpoint total (l : list nat) : nat := match l with [] => 0 | x :: t => x + total t end.
(** Border lines as drawn: width 1, black. *)
Definition hline (y x0 x1 : Q) : shape := new_stroke x0 y x1 y 1 0 R_UNDEFINED.
Definition vline (x y0 y1 : Q) : shape := new_stroke x y0 x y1 1 0 R_UNDEFINED.
Fixpoint sorted_from (h : bool) (l : list shape) : bool :=
  match l with [] => true | a :: t => forallb (fun b => Qle_bool (s_from h a) (s_from h b)) t && sorted_from h t end.

(** Two-column page: left of, right of and across the centre line of the page. *)
Definition center (page : rect) : Q := (rx0 page + rx1 page) / 2.
Definition in_left (page e : rect) : Prop := rx1 e < center page.
Definition in_right (page e : rect) : Prop := center page < rx0 e.
Definition in_column (page e : rect) : Prop := in_left page e \/ in_right page e.
Definition spanning (page e : rect) : Prop := rx0 e <= center page <= rx1 e.
(** [e] lies above (below) all the column elements. *)
Definition above_columns (page : rect) (elems : list rect) (e : rect) : Prop := forall c, In c elems -> in_column page c -> ry1 e < ry0 c.
Definition below_columns (page : rect) (elems : list rect) (e : rect) : Prop := forall c, In c elems -> in_column page c -> ry1 c < ry0 e.
