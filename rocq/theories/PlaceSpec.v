(** Vocabulary of C74: where Word sets the paragraphs of a page. *)
From Verif Require Export WholeSpec.
From Verif Require Import ParaSpec SpacingSpec.
From Verif Require DocxModel.
Open Scope Q_scope.

(** The paragraphs with text in a body (not in cells), in order. *)
Definition paragraphs_of (d : ditem) : list wordp := match d with DText w _ => [w] | _ => [] end.
(** Word sets paragraphs of [ns] rows one below the other, from [y] on: space before, rows of the given line spacing, space after.
    Where the rows of each end. *)
Fixpoint row_ends (y : Q) (ws : list wordp) (ns : list nat) : list Q :=
  match ws, ns with
  | w :: ws', n :: ns' => let e := y + wp_before w + num n * wp_line w in e :: row_ends (e + wp_after w) ws' ns'
  | _, _ => []
  end.
(** No pictures: lines of text only, so that Word keeps to the line spacing given (C27_written). *)
Definition text_only (ts : list CleanModel.tblock) : Prop := forall l s, In l (lines_in ts) -> In s (ln_spans l) -> exists t, s = TextModel.SText t.
(** What rounding to tenths of a point may add up to: half a tenth for each row, each space before and each space after so far. *)
Fixpoint roundings (e : Q) (ns : list nat) : list Q :=
  match ns with [] => [] | n :: t => e + (num n + 1) / 20 :: roundings (e + (num n + 2) / 20) t end.
(** Edges of the lines of a paragraph. *)
Definition leftmost (ls : list line) (x : Q) : Prop := (exists l, In l ls /\ x == rx0 (ln_bbox l)) /\ forall l, In l ls -> x <= rx0 (ln_bbox l).
Definition rightmost (ls : list line) (x : Q) : Prop := (exists l, In l ls /\ x == rx1 (ln_bbox l)) /\ forall l, In l ls -> rx1 (ln_bbox l) <= x.
Definition bottom_of (ls : list line) (y : Q) : Prop := exists t l, ls = t ++ [l] /\ y == ry1 (ln_bbox l).

(** The writing area of a section: the page without its margins; the text of the page is inside it (0.05 pt below at most). *)
Definition area_holds (r : rawpage) (left right top bottom : Q) (ts : list CleanModel.tblock) : Prop :=
  forall l, In l (lines_in ts) -> left <= rx0 (ln_bbox l) /\ rx1 (ln_bbox l) <= r_width r - right /\ top <= ry0 (ln_bbox l) /\ ry1 (ln_bbox l) <= r_height r - bottom + (1 # 20).
(** A paragraph of Word between the sides [left] and [right]; [tc]: tolerance for centred lines. *)
Definition across_place (tc left right : Q) (ls : list line) (w : wordp) : Prop :=
  (In (wp_align w) [A_LEFT; A_JUSTIFY] -> exists x, leftmost ls x /\ Qabs (left + word_first_line w - x) <= 1 # 20) /\
  (In (wp_align w) [A_RIGHT; A_JUSTIFY] -> exists x, rightmost ls x /\ Qabs (right - wp_right w - x) <= 1 # 20) /\
  (wp_align w = A_CENTER -> wp_left w == wp_right w /\
     forall l, ls = [l] -> Qabs ((rx0 (ln_bbox l) + rx1 (ln_bbox l)) / 2 - (left + right) / 2) < tc + (1 # 10)) /\
  (word_other_lines w == word_first_line w \/
   exists a b t, ls = a :: b :: t /\ wp_align w = A_LEFT /\ word_first_line w - word_other_lines w == rx0 (ln_bbox a) - rx0 (ln_bbox b)).
(** A page in the document: the section and its content. *)
Definition placed (tc : Q) (r : rawpage) (ts : list CleanModel.tblock) (sec : DocxModel.section) (content : list ditem) : Prop :=
  exists left right top bottom, sec = DocxModel.mkSection (r_width r) (r_height r) [left; right; top; bottom] /\ area_holds r left right top bottom ts /\
    let ws := flat_map paragraphs_of content in
    let rows := map (fun t => List.length (CleanModel.b_lines t)) ts in
    List.length ws = List.length ts /\
    forall k w t, nth_error ws k = Some w -> nth_error ts k = Some t -> wp_exact w = true /\
      across_place tc left (r_width r - right) (CleanModel.b_lines t) w /\
      exists e y drift, nth_error (row_ends top ws rows) k = Some e /\ nth_error (roundings 0 rows) k = Some drift /\ bottom_of (CleanModel.b_lines t) y /\ Qabs (e - y) <= drift.
