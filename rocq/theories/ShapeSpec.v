(** Vocabulary for shapes. *)
From Verif Require Import GeomModel GeomSpec ShapeModel.
Open Scope Q_scope.

(** Same line, width, colour, kind, type and box, up to equality of numbers. *)
Definition same_shape (a b : shape) : Prop :=
  sh_kind a = sh_kind b /\ req (sh_bbox a) (sh_bbox b) /\ sh_color a = sh_color b /\ sh_type a = sh_type b /\
  sh_x0 a == sh_x0 b /\ sh_y0 a == sh_y0 b /\ sh_x1 a == sh_x1 b /\ sh_y1 a == sh_y1 b /\ sh_width a == sh_width b /\ sh_uri a = sh_uri b.
(** A box is the smallest one covering the boxes of a group of shapes. *)
Definition hull (b : rect) (g : list shape) : Prop :=
  (forall s, In s g -> covers b (sh_bbox s)) /\ (forall c, (forall s, In s g -> covers c (sh_bbox s)) -> covers c b).
(** [u] stands for the group [g] of original shapes: same colour, smallest box around
    them, and hyperlinks are never grouped with anything. *)
Definition stands_for (u : shape) (g : list shape) : Prop :=
  g <> [] /\ (forall s, In s g -> sh_color s = sh_color u) /\ hull (sh_bbox u) g /\
  (forall s, In s g -> sh_type s = R_HYPERLINK -> g = [s]).
(** A line drawn with a text style touches the text: some text block and one of its
    lines contain the shape. *)
Definition inside_text (s : shape) (bs : list tblock) : Prop :=
  exists b, In b bs /\ contains (tb_bbox b) (sh_bbox s) 1 = true /\
            exists l, In l (tb_lines b) /\ contains l (sh_bbox s) 1 = true.
(** An area behind text: it covers (three quarters of) a text block or a text line. *)
Definition behind_text (s : shape) (bs : list tblock) : Prop :=
  exists b, In b bs /\ (contains (sh_bbox s) (tb_bbox b) FACTOR_MAJOR = true \/
            exists l, In l (tb_lines b) /\ contains (sh_bbox s) l FACTOR_MAJOR = true).
(** Text blocks with proper boxes, lines inside their block. *)
Definition text_layout (bs : list tblock) : Prop :=
  forall b, In b bs -> proper (tb_bbox b) /\ forall l, In l (tb_lines b) -> proper l /\ covers (tb_bbox b) l.
