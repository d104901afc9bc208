(** Vocabulary of C69: how Word reads the cells of a table. *)
From Verif Require Export WordModel TableSpec.
Open Scope nat_scope.

Section Read.
Context {X : Type}.
(** The w:tc over grid column [q] of a row and the column where it starts. *)
Fixpoint over_col (row : list (tc X)) (q : nat) : option (nat * tc X) :=
  match row with
  | [] => None
  | t :: r => if q <? t_span t then Some (0, t)
              else match over_col r (q - t_span t) with Some (c, x) => Some (t_span t + c, x) | None => None end
  end.
Definition over (g : grid X) (p q : nat) : option (nat * tc X) := match nth_error g p with Some row => over_col row q | None => None end.
(** Row and column of the cell shown at place (p, q): a w:tc that continues a vertical merge is part of the
    cell above it. *)
Fixpoint shown_at (g : grid X) (p q : nat) : option (nat * nat) :=
  match over g p q with
  | Some (c, t) => match t_vm t with Continue => match p with O => None | S p' => shown_at g p' c end | _ => Some (p, c) end
  | None => None
  end.
(** The cells of the source fit the regions [r] of a grid: a cell where a region starts, with its extent;
    nothing elsewhere. *)
Definition fits_regions (nr nc : nat) (r : nat -> nat -> region) (src : list (Q * list (wcell X))) : Prop :=
  List.length src = nr /\
  forall i h cells, nth_error src i = Some (h, cells) -> List.length cells = nc /\
    forall j c, nth_error cells j = Some c ->
      match wc_info c with
      | Some b => r i j = (i, j, fst (bc_merged b), snd (bc_merged b))
      | None => (reg_top (r i j), reg_left (r i j)) <> (i, j) /\ wc_vert c = false /\ wc_fill c = None
      end.
(** A border of width [w] and colour [c] in Word: in eighths of a point; none if the width is 0. *)
Definition drawn_edge (w : Q) (c : Z) (b : border) : Prop := if qeq w 0 then b = None else exists s, b = Some (s, c) /\ (s == 8 * w)%Q.
(** The borders of a parsed cell, given in the order top, right, bottom, left, on the sides of a Word cell. *)
Definition drawn_edges (b : bcell) (p : tcpr) : Prop :=
  let '(w1, w2, w3, w4) := bc_widths b in let '(c1, c2, c3, c4) := bc_colors b in
  drawn_edge w1 c1 (pr_top p) /\ drawn_edge w2 c2 (pr_end p) /\ drawn_edge w3 c3 (pr_bottom p) /\ drawn_edge w4 c4 (pr_start p).
Definition cell_of (src : list (Q * list (wcell X))) (i j : nat) : option (wcell X) :=
  match nth_error src i with Some (_, cells) => nth_error cells j | None => None end.
End Read.
