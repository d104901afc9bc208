(** Vocabulary of C75: links, underlines, strikes and highlights drawn over the text of a page of paragraphs. *)
From Verif Require Export LayoutSpec WholeSpec.
From Verif Require Import ShapeModel ShapeSpec TextModel TextSpec.
From Coq Require Import Sorting.Sorted.
From Verif Require Export CleanModel CleanSpec.
Open Scope Q_scope.

(** Boxes without a common point, and boxes with a common inner point. *)
Definition clear_of (a b : rect) : Prop := rx1 a < rx0 b \/ rx1 b < rx0 a \/ ry1 a < ry0 b \/ ry1 b < ry0 a.
Definition over (a b : rect) : Prop := rx0 a < rx1 b /\ rx0 b < rx1 a /\ ry0 a < ry1 b /\ ry0 b < ry1 a.
(** Along the line: the same extent, or with a gap between them. *)
Definition same_extent (a b : rect) : Prop := rx0 a == rx0 b /\ rx1 a == rx1 b.
Definition gap_between (a b : rect) : Prop := rx1 a < rx0 b \/ rx1 b < rx0 a.

(** What a shape means for text with box [t] (TextSpan.py:277-339): a link is a link; a drawn line lower than half of the text underlines
    it near the bottom and strikes it near the middle; a not white area, at least half as high as the text, over three quarters of its height
    highlights it. *)
Definition shows (s : shape) (t : rect) (k : rtype) : Prop :=
  match k with
  | R_HYPERLINK => sh_type s = R_HYPERLINK
  | R_UNDERLINE => sh_type s = R_UNDEFINED /\ rheight (sh_bbox s) < rheight t / 2 /\ Qabs (ry1 t - ry0 (sh_bbox s)) <= rheight t / 4
  | R_STRIKE => sh_type s = R_UNDEFINED /\ rheight (sh_bbox s) < rheight t / 2 /\ (35 # 100) * rheight t < Qabs (ry1 t - ry0 (sh_bbox s)) < (75 # 100) * rheight t
  | R_HIGHLIGHT => sh_type s = R_UNDEFINED /\ rheight t / 2 <= rheight (sh_bbox s) /\ sh_color s <> 16777215%Z /\
      (3 # 4) * rheight t <= qmin (ry1 t) (ry1 (sh_bbox s)) - qmax (ry0 t) (ry0 (sh_bbox s))
  | _ => False
  end.
(** The format it gives: its kind and colour, and the address of a link. *)
Definition format (kind : shape -> rtype) (s : shape) : style := mkStyle (kind s) (sh_color s) (match kind s with R_HYPERLINK => sh_uri s | _ => O end).

(** Text set in one row: characters one after the other, as high as the text, in its box. *)
Definition set_text (t : tspan) : Prop :=
  proper (ts_bbox t) /\ rect_decimal (ts_bbox t) /\ laid_out true (ts_chars t) /\
  forall c, In c (ts_chars t) -> ry0 (ch_bbox c) == ry0 (ts_bbox t) /\ ry1 (ch_bbox c) == ry1 (ts_bbox t) /\
    rx0 (ts_bbox t) <= rx0 (ch_bbox c) /\ rx1 (ch_bbox c) <= rx1 (ts_bbox t).
(** The shapes [ms] (in the order they are applied) are clearly set over the text [t]: each is off the text, or lies over it, over more
    than half of one of its characters at least, with a meaning; two over the text have the same extent along the line, or a
    gap between them; after a second shape of the same extent no shape to the left of it follows. *)
Definition clearly_marked (kind : shape -> rtype) (ms : list shape) (t : tspan) : Prop :=
  (forall s, In s ms -> clear_of (sh_bbox s) (ts_bbox t) \/
     (over (sh_bbox s) (ts_bbox t) /\ shows s (ts_bbox t) (kind s) /\ exists c, In c (ts_chars t) /\ half_covered true (sh_bbox s) c)) /\
  (forall x a y b z, ms = x ++ a :: y ++ b :: z -> over (sh_bbox a) (ts_bbox t) -> over (sh_bbox b) (ts_bbox t) ->
     gap_between (sh_bbox a) (sh_bbox b) \/
     (same_extent (sh_bbox a) (sh_bbox b) /\ forall d, In d z -> over (sh_bbox d) (ts_bbox t) -> ~ rx1 (sh_bbox d) < rx0 (sh_bbox b))).
(** The formats of a character: those of the shapes over more than half of it, in order. *)
Inductive formats_on (kind : shape -> rtype) (c : char) : list shape -> list style -> Prop :=
| fo_nil : formats_on kind c [] []
| fo_yes s ms fs : half_covered true (sh_bbox s) c -> formats_on kind c ms fs -> formats_on kind c (s :: ms) (format kind s :: fs)
| fo_no s ms fs : ~ half_covered true (sh_bbox s) c -> formats_on kind c ms fs -> formats_on kind c (s :: ms) fs.
(** A character (picture) before and after. *)
Definition formatted (kind : shape -> rtype) (ms : list shape) (a b : glyph * list style) : Prop :=
  fst b = fst a /\ match fst a with
                   | GChar c _ => exists fs, formats_on kind c ms fs /\ snd b = snd a ++ fs
                   | GImage _ _ => snd b = snd a
                   end.
(** The texts of a block. *)
Definition texts_in (b : tblock) : list tspan := flat_map (fun l => flat_map (fun s => match s with SText t => [t] | SImage _ _ => [] end) (ln_spans l)) (b_lines b).
(** Shapes in the order they are applied (Layout.py:142-145): drawn lines, areas, links. *)
Definition in_turn (l : list shape) : list shape :=
  filter (fun s => kind_eqb (sh_kind s) KStroke) l ++ filter (fun s => kind_eqb (sh_kind s) KFill) l ++ filter (fun s => kind_eqb (sh_kind s) KLink) l.

(** No drawing (links aside) is over texts of two blocks. *)
Definition alone (ms : list shape) (a b : tblock) : Prop :=
  forall s t u, In s ms -> sh_type s <> R_HYPERLINK -> In t (texts_in a) -> In u (texts_in b) -> over (sh_bbox s) (ts_bbox t) -> over (sh_bbox s) (ts_bbox u) -> False.
(** The blocks of a page as drawings see them (C40). *)
Definition text_boxes (c : cleaned) : list ShapeModel.tblock := map (fun b => ShapeModel.mkTblock (b_bbox b) (map ln_bbox (b_lines b))) (c_blocks c).
(** The drawings and links of a page (after their clean-up) are formats of its text [ts], and no more: drawn lines in lines of text, areas not
    behind whole lines or blocks (C40); each clearly set over the texts, no drawing over two paragraphs. *)
Definition formats_only (kind : shape -> rtype) (c : cleaned) (ts : list tblock) : Prop :=
  (forall s, In s (c_shapes c) -> proper (sh_bbox s) /\ rect_decimal (sh_bbox s)) /\
  (forall s, In s (c_shapes c) -> sh_kind s = KStroke -> inside_text s (text_boxes c)) /\
  (forall s, In s (c_shapes c) -> sh_kind s = KFill -> ~ behind_text s (text_boxes c)) /\
  (forall b t, In b ts -> In t (texts_in b) -> set_text t /\ clearly_marked kind (in_turn (c_shapes c)) t) /\
  ForallOrdPairs (alone (in_turn (c_shapes c))) ts.
Definition without_drawings (r : rawpage) : rawpage := mkRaw (r_width r) (r_height r) (r_blocks r) [].
