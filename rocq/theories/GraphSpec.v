(** Vocabulary: reachability in a finite graph; chains of related elements. *)
From Coq Require Import List Arith Relations.
Import ListNotations.

(** Edge from [a] to [b]: [b] is in the adjacency set of [a]. *)
Definition edge (g : list (list nat)) (a b : nat) : Prop :=
  exists ns, nth_error g a = Some ns /\ In b ns.
(** Path of any length (including 0). *)
Definition reach (g : list (list nat)) : nat -> nat -> Prop := clos_refl_trans nat (edge g).
(** All neighbours are nodes. *)
Definition in_range (g : list (list nat)) : Prop := forall a b, edge g a b -> b < length g.
Definition symmetric_graph (g : list (list nat)) : Prop := forall a b, edge g a b -> edge g b a.

(** Positions [i], [j] of [l] hold elements related by [f] (the earlier one
    first). *)
Definition pair_holds {A} (f : A -> A -> bool) (l : list A) (i j : nat) : Prop :=
  (i < j /\ exists a b, nth_error l i = Some a /\ nth_error l j = Some b /\ f a b = true) \/
  (j < i /\ exists a b, nth_error l j = Some a /\ nth_error l i = Some b /\ f a b = true).
(** Linked by a chain of such pairs. *)
Definition chained {A} (f : A -> A -> bool) (l : list A) : nat -> nat -> Prop :=
  clos_refl_trans nat (pair_holds f l).
