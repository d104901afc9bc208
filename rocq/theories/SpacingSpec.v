(** Vocabulary for vertical positions (C63).  Positions are measured along the axis on which lines
    follow one another: down for horizontal text. *)
From Verif Require Export SpacingModel ParaSpec.
Open Scope Q_scope.

Definition total (l : list Q) : Q := fold_right Qplus 0 l.
Definition num (n : nat) : Q := inject_Z (Z.of_nat n).
(** How Word sets the blocks one below the other, from position [y] on, and where each block
    ends: a paragraph is its space before, its rows (each as high as the line spacing) and its space after;
    a table is the space before it (an empty paragraph), and its rows, measured between the
    centres of its borders. *)
Inductive flows : Q -> list vblock -> list vspace -> list Q -> Prop :=
| fl_nil y : flows y [] [] []
| fl_text y bb ls n v bs vs ys : row_count ls n ->
    flows (y + v_before v + num n * v_line v + v_after v) bs vs ys ->
    flows y (VText bb ls :: bs) (v :: vs) (y + v_before v + num n * v_line v :: ys)
| fl_table y bb w hs v bs vs ys :
    flows (y + v_before v + w / 2 + total hs + w / 2) bs vs ys ->
    flows y (VTable bb (Some w) hs :: bs) (v :: vs) (y + v_before v + w / 2 + total hs :: ys).

(** Lower end of a block (of the centre of the border for a table), and of what is drawn. *)
Definition v_end (h : bool) (b : vblock) : Q := hi h (v_box b).
Definition v_outer (h : bool) (b : vblock) : Q := match b with VTable bb (Some w) _ => hi h bb + w / 2 | _ => hi h (v_box b) end.

(** A paragraph can be set at all: it reads along the page, and has several rows or fills its box. *)
Definition settable (h : bool) (b : vblock) : Prop :=
  match b with
  | VText bb ls => is_horizontal (block_dir ls) = h /\ exists n, row_count ls n /\ ((1 < n)%nat \/ exists l0 t, ls = l0 :: t /\ extent h (ln_bbox l0) == extent h bb)
  | VImage _ => False
  | VTable bb (Some w) hs => total hs == extent h bb
  | VTable _ None _ => False
  end.
(** Tables come below what is before them (at [ref]), at least 1pt below another table, and end
    inside the container.  Nothing is asked of text blocks. *)
Fixpoint tables_fit (h : bool) (container : rect) (after_table : bool) (ref : Q) (bs : list vblock) : Prop :=
  match bs with
  | [] => True
  | b :: t =>
      match b with
      | VTable bb (Some w) _ => ref + (if after_table then 1 else 0) <= lo h bb - w / 2 /\ hi h bb <= hi h container
      | _ => True
      end /\
      tables_fit h container (negb (v_is_text b)) (v_outer h b) t
  end.

(** The same with the numbers that are written: spaces are rounded to a tenth of a point (not below
    zero); the empty paragraph before a table exists if the space is at least 0.7pt or the previous
    block is a table, and is cut to a tenth of a point. *)
Definition written_space (q : Q) : Q := qmax (round1 q) 0.
Inductive written : bool -> Q -> list vblock -> list vspace -> list Q -> Prop :=
| wr_nil p y : written p y [] [] []
| wr_text p y bb ls n v bs vs ys : row_count ls n ->
    written false (y + written_space (v_before v) + num n * round1 (v_line v) + written_space (v_after v)) bs vs ys ->
    written p y (VText bb ls :: bs) (v :: vs) (y + written_space (v_before v) + num n * round1 (v_line v) :: ys)
| wr_table (p : bool) y bb w hs v d bs vs ys :
    (if p then True else 7 # 10 <= v_before v) /\ (d <= v_before v /\ v_before v < d + (1 # 10) /\ exists z, d == inject_Z z / 10) \/
    p = false /\ v_before v < 7 # 10 /\ d = 0 ->
    written true (y + d + w / 2 + total hs + w / 2) bs vs ys ->
    written p y (VTable bb (Some w) hs :: bs) (v :: vs) (y + d + w / 2 + total hs :: ys).
(** What rounding may shift up to and including each block; nothing for a table with no space before it. *)
Definition slack (v : vspace) : Q := if Qeq_bool (v_before v) 0 then 0 else 7 # 10.
Inductive budget : Q -> list vblock -> list vspace -> list Q -> Prop :=
| bu_nil e : budget e [] [] []
| bu_text e bb ls n v bs vs es : row_count ls n -> budget (e + (num n + 2) / 20) bs vs es -> budget e (VText bb ls :: bs) (v :: vs) (e + (num n + 1) / 20 :: es)
| bu_table e bb w hs v bs vs es : budget (e + slack v) bs vs es -> budget e (VTable bb w hs :: bs) (v :: vs) (e + slack v :: es).
