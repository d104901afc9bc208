(** Vocabulary of C86: where Word sets a table and the paragraphs around it. *)
From Verif Require Export FillSpec.
From Verif Require DocxModel.
From Verif Require Import ParaSpec GridSpec SpacingSpec.
Open Scope Q_scope.

(** English Metric Units in points. *)
Definition points (z : Z) : Q := inject_Z z / 12700.
(** Word sets the items of a body one below the other, from [y] on: a paragraph as in [row_ends] (with the numbers [ns] of rows); an empty paragraph
    of the given height before a table; a table from half of the width [w] of its border above the middle of its first line to half of it
    below the middle of its last line, its rows measured from middle to middle.
    Where the rows of each paragraph end, and where the (middle of the) upper line of each table is. *)
Fixpoint set_at (w y : Q) (ds : list TreeModel.ditem) (ns : list nat) : list Q :=
  match ds with
  | TreeModel.DText p _ :: t => match ns with n :: ns' => let e := y + wp_before p + num n * wp_line p in e :: set_at w (e + wp_after p) t ns' | [] => [] end
  | TreeModel.DTable _ hs _ :: t => let u := y + w / 2 in u :: set_at w (u + points (rows_height hs 0 (List.length hs)) + w / 2) t ns
  | TreeModel.DOther (DocxModel.PDummy h) _ :: t => set_at w (y + h) t ns
  | _ => []
  end.
(** What rounding may shift a table below paragraphs of [ns] rows: half a tenth for each row and each space; with nothing above it, a space of less than 0.7 pt is
    not made. *)
Definition table_drift (ns : list nat) : Q := match ns with [] => 7 # 10 | _ => fold_right (fun n q => (num n + 2) / 20 + q) 0 ns end.
(** The frame, with its upper border, is in the area, and below the paragraphs above it. *)
Definition frame_fits (area : rect) (g : grid) (above : list CleanModel.tblock) : Prop :=
  ry0 area + g_width g / 2 <= ry0 (frame_box g) /\ ry1 (frame_box g) <= ry1 area /\ forall t, In t above -> ry1 (CleanModel.b_bbox t) + g_width g / 2 <= ry0 (frame_box g).
(** The page in Word: the paragraphs above and below end where they did, the lines of the table are where they were, up to rounding; [hs]: the heights of the rows; the
    last line of a table at the end of the page is 1 pt higher (C63). *)
Definition set_down_page (g : grid) (above below : list CleanModel.tblock) (top : Q) (body : list TreeModel.ditem) (hs : list Z) : Prop :=
  let rows := map (fun t => List.length (CleanModel.b_lines t)) in
  let zs := set_at (g_width g) top body (rows above ++ rows below) in
  List.length zs = (List.length above + S (List.length below))%nat /\
  (forall k t, nth_error above k = Some t -> exists z y e, nth_error zs k = Some z /\ nth_error (roundings 0 (rows above)) k = Some e /\ bottom_of (CleanModel.b_lines t) y /\ Qabs (z - y) <= e) /\
  (exists z, nth_error zs (List.length above) = Some z /\
    forall i, (i <= g_rows g)%nat -> (i < g_rows g)%nat \/ below <> [] -> Qabs (z + points (rows_height hs 0 i) - round1 (gy g i)) <= table_drift (rows above)) /\
  (forall k t, nth_error below k = Some t -> exists z y e, nth_error zs (List.length above + S k) = Some z /\ nth_error (roundings (table_drift (rows above)) (rows below)) k = Some e /\
    bottom_of (CleanModel.b_lines t) y /\ Qabs (z - y) <= e).

(** The widths of the cells of row [p] that start left of column [j], together. *)
Fixpoint width_before {X} (t : list (list (WordModel.tc X))) (p j : nat) : Q :=
  match j with
  | O => 0
  | S q => width_before t p q + match WordSpec.over t p q with
                                | Some (s, c) => if Nat.eqb s q then match WordModel.pr_width (WordModel.t_pr c) with Some w => w | None => 0 end else 0
                                | None => 0
                                end
  end.
(** The table across the page, its indent [ind] in twentieths of a point: in every row, up to the first cell that continues one of the row above,
    left margin, indent and the widths of the cells lead to each side of a cell. *)
Definition set_across_page (g : grid) (r : nat -> nat -> TableSpec.region) (left ind : Q) {X} (t : list (list (WordModel.tc X))) : Prop :=
  forall p j, (p < g_rows g)%nat -> (j <= g_cols g)%nat -> (forall q, (q < j)%nat -> TableSpec.reg_top (r p q) = p) -> ((j < g_cols g)%nat -> TableSpec.reg_left (r p j) = j) ->
    left + ind / 20 + width_before t p j == round1 (gx g j).
