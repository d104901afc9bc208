(** Vocabulary of C73: a page of paragraphs, and its docx. *)
From Verif Require Export CleanSpec TreeSpec WholeModel.
From Verif Require Import ParaSpec.
From Coq Require Export Sorting.Sorted.
From Verif Require Export CleanModel CleanSpec.
Open Scope Q_scope.

(** Boxes beneath each other, from the top; they may touch. *)
Definition top_down (rs : list rect) : Prop := StronglySorted (fun a b => ry1 a <= ry0 b) rs.
(** A paragraph: lines of text running from left to right, named by the block of the pdf they are from; or a picture. *)
Definition paragraph (c : CleanModel.tblock) : Prop :=
  (CleanModel.b_img c = true -> wrapped_image c) /\ nested c /\ CleanModel.b_lines c <> [] /\
  (exists p, forall l, In l (CleanModel.b_lines c) -> ln_pid l = Some p) /\
  forall l, In l (CleanModel.b_lines c) -> normal_line l /\ ln_dir l = LEFT_RIGHT.
Definition other_block (a b : CleanModel.tblock) : Prop := forall l m, In l (CleanModel.b_lines a) -> In m (CleanModel.b_lines b) -> ln_pid l <> ln_pid m.
(** A page of paragraphs of text only: [ts] are the blocks of the pdf without redundant blanks, from the top to the bottom. *)
Definition paragraph_page (r : rawpage) (ts : list CleanModel.tblock) : Prop :=
  r_shapes r = [] /\ proper (page_box r) /\ (forall b, In b (r_blocks r) -> proper (CleanModel.b_bbox b) /\ to_keep (page_box r) b /\ CleanModel.b_img b = false) /\
  Permutation (map CleanModel.block_strip (r_blocks r)) ts /\ Forall paragraph ts /\ ForallOrdPairs other_block ts /\
  top_down (map ln_bbox (lines_in ts)).
(** Not in sections of columns: a line across the middle of [area], with a line of the left or the right half not below it and one not
    above it. *)
Definition one_column (area : rect) (ts : list CleanModel.tblock) : Prop :=
  exists l a b, In l (lines_in ts) /\ In a (lines_in ts) /\ In b (lines_in ts) /\
    TableSpec.spanning area (ln_bbox l) /\ TableSpec.in_column area (ln_bbox a) /\ TableSpec.in_column area (ln_bbox b) /\
    ry0 (ln_bbox a) <= ry1 (ln_bbox l) /\ ry0 (ln_bbox l) <= ry1 (ln_bbox b).

(** No other line of [ls] starts where [l] starts, or ends twice the gap behind it. *)
Definition starts_alone (gap : Q) (ls : list line) (l : line) : Prop :=
  forall rest x, Permutation ls (l :: rest) -> In x rest -> ~ rx0 (ln_bbox l) == rx0 (ln_bbox x) /\ ~ rx0 (ln_bbox l) + 2 * gap == rx1 (ln_bbox x).
(** Two lines of [ls] overlap by more than the gap, and the one that starts further right starts alone. *)
Definition lies_on (gap : Q) (ls : list line) (l o : line) : Prop :=
  inner_overlap gap l o /\ ((rx0 (ln_bbox o) < rx0 (ln_bbox l) /\ starts_alone gap ls l) \/ (rx0 (ln_bbox l) < rx0 (ln_bbox o) /\ starts_alone gap ls o)).
(** Pictures [fs] lying on the text or on each other, while those among [ts] are clear of them. *)
Definition pictures_on (gap : Q) (ts fs : list CleanModel.tblock) : Prop :=
  (fs <> [] -> forall x, In x (lines_in (ts ++ fs)) -> 2 * gap < rx1 (ln_bbox x) - rx0 (ln_bbox x)) /\
  (forall f, In f fs -> CleanModel.b_img f = true /\ exists l fs' o, CleanModel.b_lines f = [l] /\ Permutation fs (f :: fs') /\ In o (lines_in (ts ++ fs')) /\ lies_on gap (lines_in (ts ++ fs)) l o) /\
  (forall t l f o, In t ts -> CleanModel.b_img t = true -> In l (CleanModel.b_lines t) -> In f fs -> In o (CleanModel.b_lines f) -> ry1 (ln_bbox l) <= ry0 (ln_bbox o) \/ ry1 (ln_bbox o) <= ry0 (ln_bbox l)).
(** A page of paragraphs and pictures between them, [ts], and of pictures [fs] that lie on them. *)
Definition picture_page (gap : Q) (r : rawpage) (ts fs : list CleanModel.tblock) : Prop :=
  r_shapes r = [] /\ proper (page_box r) /\ (forall b, In b (r_blocks r) -> proper (CleanModel.b_bbox b) /\ to_keep (page_box r) b /\ (CleanModel.b_img b = true -> wrapped_image b)) /\
  Permutation (map CleanModel.block_strip (r_blocks r)) (ts ++ fs) /\ Forall paragraph (ts ++ fs) /\ ForallOrdPairs other_block ts /\
  top_down (map ln_bbox (lines_in ts)) /\ pictures_on gap ts fs.
(** [f] is the picture [k]. *)
Definition is_picture (f : CleanModel.tblock) (k : nat) : Prop := exists l r, CleanModel.b_lines f = [l] /\ ln_spans l = [SImage k r].
