(** Vocabulary for stream layout (C64, C65). *)
From Verif Require Export AssignSpec CleanSpec FlowModel.
Open Scope Q_scope.

Definition f_lines (b : fblock) : list line := match b with FText t => b_lines t | FTable _ _ => [] end.
Definition is_table (b : fblock) : Prop := exists id bb, b = FTable id bb.
(** A line without the name of the block it came from. *)
Definition anon (l : line) : line := mkLine (ln_bbox l) (ln_dir l) (ln_spans l) None (ln_break l).
Definition from_source (p : nat) (l : line) : Prop := ln_pid l = Some p.
(** Common part of the extents on an axis (true: vertical), and the shorter of the two. *)
Definition together (axis : bool) (a b : rect) : Q := qmin (hi axis a) (hi axis b) - qmax (lo axis a) (lo axis b).
Definition shorter (axis : bool) (a b : rect) : Q := qmin (hi axis a - lo axis a) (hi axis b - lo axis b).
(** Two lines are next to each other: they share at least [tol] of the height of the lower
    one, but are not one above the other (less than 95% of the width of the narrower one in common);
    for text running upwards the axes are exchanged. *)
Definition abreast (tol : Q) (a b : line) : Prop :=
  let ax := is_horizontal (ln_dir a) in
  tol * shorter ax (ln_bbox a) (ln_bbox b) <= together ax (ln_bbox a) (ln_bbox b) /\
  together (negb ax) (ln_bbox a) (ln_bbox b) < (95 # 100) * shorter (negb ax) (ln_bbox a) (ln_bbox b).
(** [a] comes before [b] in the list. *)
Definition earlier {A} (l : list A) (a b : A) : Prop := exists x y z, l = x ++ a :: y ++ b :: z.
(** A page before the splitting: boxes are proper, lines are normal. *)
Definition flow_page (bs : list fblock) : Prop :=
  (forall b, In b bs -> proper (f_box b)) /\ (forall b l, In b bs -> In l (f_lines b) -> box (ln_bbox l)).
(** A text block whose rows run on. *)
Definition flowing (order : list nat -> list nat) (tol sep : Q) (b : fblock) : Prop := exists t, b = FText t /\ is_flow_layout order tol sep (b_lines t) = Some true.
Definition loose (order : list nat -> list nat) (tol sep : Q) (b : fblock) : Prop := exists t, b = FText t /\ is_flow_layout order tol sep (b_lines t) = Some false.

(** Two neighbouring blocks touch on the axis across the text of the first. *)
Definition in_line (b n : fblock) : Prop := let ax := is_horizontal (e_dir (f_elem b)) in lo ax (f_box n) <= hi ax (f_box b) /\ lo ax (f_box b) <= hi ax (f_box n).
Definition in_line_at (bs : list fblock) (i : nat) : Prop := exists a b, nth_error bs i = Some a /\ nth_error bs (S i) = Some b /\ in_line a b.
(** Looks like part of a table: its lines do not run on, or it is level with the block before or after. *)
Definition tabular (order : list nat -> list nat) (tol sep : Q) (bs : list fblock) (i : nat) : Prop :=
  (exists b, nth_error bs i = Some b /\ loose order tol sep b) \/ in_line_at bs i \/ (exists j, i = S j /\ in_line_at bs j).
Definition shaded (shadings : list shade) (b : fblock) : Prop :=
  exists s, In s shadings /\ sd_color s <> 16777215%Z /\ sd_known s = false /\ contains (sd_box s) (f_box b) (9 # 10) = true.
(** Runs of neighbours with a non-zero number, as long as possible. *)
Definition close {A} (run : list A) : list (list A) := match run with [] => [] | _ => [run] end.
Fixpoint runs_from {A} (run : list (nat * A)) (l : list (nat * A)) : list (list (nat * A)) :=
  match l with
  | [] => close run
  | (O, _) :: t => close run ++ runs_from [] t
  | p :: t => runs_from (run ++ [p]) t
  end.
Definition runs {A} (l : list (nat * A)) : list (list (nat * A)) := runs_from [] l.
(** The lines of a run; a block may be taken twice. *)
Definition run_lines (run : list (nat * fblock)) : list line := flat_map (fun p => concat (repeat (sub_lines (snd p)) (fst p))) run.
