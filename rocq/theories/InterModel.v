(** Model of the rectangle-intersection sweep (share.py:245-341) and of
    BaseCollection.group_by_connectivity (Collection.py:81-117). *)
From Verif Require Export Rect PySort GraphModel.
Open Scope Q_scope.

(** [(index, points, x)]; the index is 2k for the left edge of the k-th
    rectangle and 2k+1 for its right edge. *)
Record item := mkItem { it_idx : nat; it_rect : rect; it_x : Q }.
(** [int(index/2)]. *)
Definition owner (i : item) : nat := Nat.div2 (it_idx i).

(** [while k<len(S) and cond(S[k])] from the current position. *)
Fixpoint take_while {A} (f : A -> bool) (l : list A) : list A :=
  match l with
  | [] => []
  | x :: t => if f x then x :: take_while f t else []
  end.

(** share.py:319-334: the loop of [_stab] on the suffixes S1[i:], S2[j:]; the
    result lists the reported pairs in order.  [fuel] bounds the number of
    iterations (always enough, InterProof). *)
Fixpoint stab_loop (fuel : nat) (s1 s2 : list item) : list (nat * nat) :=
  match fuel with
  | O => []
  | S f =>
      match s1, s2 with
      | a :: t1, b :: t2 =>
          if qlt (ry0 (it_rect a)) (ry0 (it_rect b)) then
            map (fun k => (owner a, owner k)) (take_while (fun k => qlt (ry0 (it_rect k)) (ry1 (it_rect a))) s2)
            ++ stab_loop f t1 s2
          else
            map (fun k => (owner k, owner b)) (take_while (fun k => qlt (ry0 (it_rect k)) (ry1 (it_rect b))) s1)
            ++ stab_loop f s1 t2
      | _, _ => []
      end
  end.
Definition by_y0 (l : list item) : list item := sort_key (fun i => [ry0 (it_rect i)]) l.
(** share.py:294-334 [_stab]. *)
Definition stab (s1 s2 : list item) : list (nat * nat) :=
  stab_loop (length s1 + length s2) (by_y0 s1) (by_y0 s2).

(** share.py:245-291 [solve_rects_intersection]; [num] is [len(V)] as at the
    call site (Collection.py:112).  [fuel] bounds the depth of the recursion. *)
Definition first_x (v : list item) : Q := match v with [] => 0 | i :: _ => it_x i end.
Definition last_x (v : list item) : Q := first_x (rev v).
Fixpoint solve (fuel : nat) (v : list item) : list (nat * nat) :=
  match fuel with
  | O => []
  | S f =>
      if Nat.ltb (length v) 2 then []
      else
        let center := Nat.div2 (length v) in
        let left := firstn center v in
        let right := skipn center v in
        let X0 := first_x v in
        let X := last_x left in
        let X1 := last_x v in
        let S11 := filter (fun i => qle (rx1 (it_rect i)) X) left in
        let S12 := filter (fun i => qle X1 (rx1 (it_rect i))) left in
        let S22 := filter (fun i => qlt X (rx0 (it_rect i))) right in
        let S21 := filter (fun i => qle (rx0 (it_rect i)) X0) right in
        stab S12 S22 ++ stab S21 S11 ++ stab S12 S21 ++ solve f left ++ solve f right
  end.

(** Collection.py:104-111. *)
Fixpoint edges_of (k : nat) (rs : list rect) : list item :=
  match rs with
  | [] => []
  | r :: t => mkItem (2 * k) r (rx0 r) :: mkItem (2 * k + 1) r (rx1 r) :: edges_of (S k) t
  end.
Definition sorted_edges (rs : list rect) : list item := sort_key (fun i => [it_x i]) (edges_of 0 rs).
(** Reported pairs for a family of rectangles. *)
Definition report (rs : list rect) : list (nat * nat) := solve (2 * length rs) (sorted_edges rs).

(** Collection.py:107: tolerance. *)
Definition widen (dx dy : Q) (r : rect) : rect := rplus r (- dx) (- dy) dx dy.
(** share.py:337-340 [_report_pair] and Collection.py:81-117; [order] is the
    iteration order of Python sets. *)
Definition connectivity_graph (dx dy : Q) (rs : list rect) : list (list nat) :=
  fold_left (fun g ij => link (fst ij) (snd ij) g) (report (map (widen dx dy) rs)) (repeat [] (length rs)).
Definition group_by_connectivity (order : list nat -> list nat) (dx dy : Q) (rs : list rect) : option (list (list nat)) :=
  match graph_bfs (map order (connectivity_graph dx dy rs)) with
  | None => None
  | Some gs => Some (map order gs)
  end.
