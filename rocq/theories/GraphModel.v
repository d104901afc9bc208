(** Model of the graph search in pdf2docx/common/share.py and of
    BaseCollection.group in pdf2docx/common/Collection.py. *)
From Coq Require Export List Arith Lia Bool Permutation.
Export ListNotations.

Definition memb (x : nat) (l : list nat) : bool := existsb (Nat.eqb x) l.

(** share.py:366-383 [_graph_bfs_from_node].  A graph is the list of the
    adjacency sets, each given as the list of its members in iteration order.
    [out] holds the nodes already yielded (= [searched]), newest first.
    [None]: IndexError of [graph[cur_node]]; the outer [None] of running out of
    [fuel] cannot happen (GraphProof). *)
Fixpoint bfs_loop (fuel : nat) (g : list (list nat)) (queue out : list nat) : option (list nat) :=
  match fuel with
  | O => None
  | S f =>
      match queue with
      | [] => Some (rev out)
      | cur :: q =>
          if memb cur out then bfs_loop f g q out
          else match nth_error g cur with
               | None => None
               | Some ns => bfs_loop f g (q ++ ns) (cur :: out)
               end
      end
  end.
Definition bfs_fuel (g : list (list nat)) : nat := S (S (length (concat g))).
Definition bfs_from_node (g : list (list nat)) (start : nat) : option (list nat) :=
  bfs_loop (bfs_fuel g) g [start] [].

(** share.py:343-363 [graph_bfs]. *)
Fixpoint graph_bfs_loop (g : list (list nat)) (todo counted : list nat) : option (list (list nat)) :=
  match todo with
  | [] => Some []
  | i :: t =>
      if memb i counted then graph_bfs_loop g t counted
      else match bfs_from_node g i with
           | None => None
           | Some grp => match graph_bfs_loop g t (grp ++ counted) with
                         | None => None
                         | Some r => Some (grp :: r)
                         end
           end
  end.
Definition graph_bfs (g : list (list nat)) : option (list (list nat)) :=
  graph_bfs_loop g (seq 0 (length g)) [].

(** [set.add]. *)
Definition set_add (x : nat) (l : list nat) : list nat := if memb x l then l else l ++ [x].
Fixpoint upd (k : nat) (f : list nat -> list nat) (g : list (list nat)) : list (list nat) :=
  match g, k with
  | [], _ => []
  | x :: t, O => f x :: t
  | x :: t, S k' => x :: upd k' f t
  end.
(** [index_groups[i].add(j); index_groups[j].add(i)]. *)
Definition link (i j : nat) (g : list (list nat)) : list (list nat) :=
  upd j (set_add i) (upd i (set_add j) g).

Section Group.
Context {A : Type}.
Variable fun_ : A -> A -> bool.

(** Collection.py:68-73. *)
Definition pairs (n : nat) : list (nat * nat) :=
  flat_map (fun i => map (fun j => (i, j)) (seq (S i) (n - S i))) (seq 0 n).
Definition linked (l : list A) (ij : nat * nat) : bool :=
  match nth_error l (fst ij), nth_error l (snd ij) with
  | Some a, Some b => fun_ a b
  | _, _ => false
  end.
Definition adjacency (l : list A) : list (list nat) :=
  fold_left (fun g ij => if linked l ij then link (fst ij) (snd ij) g else g)
            (pairs (length l)) (repeat [] (length l)).

(** Collection.py:75-78: indexes of the groups; [order] is the iteration order
    of Python sets (any permutation). *)
Definition group_indexes (order : list nat -> list nat) (l : list A) : option (list (list nat)) :=
  match graph_bfs (map order (adjacency l)) with
  | None => None
  | Some gs => Some (map order gs)
  end.
(** Collection.py:78 [self._instances[i]]: indexes come from
    [range(num)], so the lookup cannot fail (group_indexes_spec). *)
Definition item_at (l : list A) (i : nat) : list A :=
  match nth_error l i with Some a => [a] | None => [] end.
Definition group (order : list nat -> list nat) (l : list A) : option (list (list A)) :=
  match group_indexes order l with
  | None => None
  | Some gs => Some (map (fun grp => flat_map (item_at l) grp) gs)
  end.
End Group.
