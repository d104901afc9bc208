(** Python built-ins used by several parts of the model: integer ranges,
    sequence indexing and slicing.  These model CPython, not /repo. *)
From Coq Require Export List ZArith Lia Bool.
Export ListNotations.
Open Scope Z_scope.

(** [list(range(a, b))]. *)
Definition zrange (a b : Z) : list Z :=
  map (fun k => a + Z.of_nat k) (seq 0 (Z.to_nat (b - a))).

(** [len(l)] as an integer. *)
Definition zlen {A} (l : list A) : Z := Z.of_nat (length l).

(** Position addressed by [l[i]] for a sequence of length [n]; [None] is
    [IndexError]. *)
Definition norm_index (n i : Z) : option nat :=
  if (0 <=? i) && (i <? n) then Some (Z.to_nat i)
  else if (- n <=? i) && (i <? 0) then Some (Z.to_nat (i + n))
  else None.

Definition py_get {A} (l : list A) (i : Z) : option A :=
  match norm_index (zlen l) i with
  | None => None
  | Some k => nth_error l k
  end.

(** Replace the element at position [k]. *)
Fixpoint update {A} (k : nat) (f : A -> A) (l : list A) : list A :=
  match l, k with
  | [], _ => []
  | x :: t, O => f x :: t
  | x :: t, S k' => x :: update k' f t
  end.

(** PySlice_AdjustIndices for one bound, [step] gives the direction. *)
Definition adjust_bound (n : Z) (neg : bool) (v : Z) : Z :=
  if v <? 0 then
    let w := v + n in
    if w <? 0 then (if neg then -1 else 0) else w
  else if n <=? v then (if neg then n - 1 else n) else v.

(** [slice(start, stop, step).indices(n)] and the resulting count;
    [step] is assumed non-zero (Python raises ValueError otherwise). *)
Definition slice_start (n : Z) (start : option Z) (step : Z) : Z :=
  let neg := step <? 0 in
  match start with
  | None => if neg then n - 1 else 0
  | Some v => adjust_bound n neg v
  end.
Definition slice_stop (n : Z) (stop : option Z) (step : Z) : Z :=
  let neg := step <? 0 in
  match stop with
  | None => if neg then -1 else n
  | Some v => adjust_bound n neg v
  end.
Definition slice_count (lo hi step : Z) : Z :=
  if step <? 0 then (if hi <? lo then (lo - hi - 1) / (- step) + 1 else 0)
  else (if lo <? hi then (hi - lo - 1) / step + 1 else 0).
Definition slice_indices (n : Z) (start stop : option Z) (step : Z) : list Z :=
  let lo := slice_start n start step in
  let hi := slice_stop n stop step in
  map (fun k => lo + Z.of_nat k * step) (seq 0 (Z.to_nat (slice_count lo hi step))).

(** [l[start:stop:step]]; [None] elements cannot occur (proved in PyBaseProof). *)
Definition py_slice {A} (l : list A) (start stop : option Z) (step : Z) : list A :=
  flat_map (fun i => match nth_error l (Z.to_nat i) with Some x => [x] | None => [] end)
           (slice_indices (zlen l) start stop step).
