(** Python's [list.sort(key=...)]: a stable sort.  Model: stable insertion
    sort; the lemmas show it is a permutation, sorted and stable, which
    determines the result uniquely, so the choice of algorithm is immaterial. *)
From Coq Require Export List Bool Permutation Sorted.
Export ListNotations.
From Verif Require Import PyNum.

Section Sort.
Context {A : Type}.
Variable le : A -> A -> bool.

Fixpoint insert_sorted (x : A) (l : list A) : list A :=
  match l with
  | [] => [x]
  | y :: t => if le x y then x :: y :: t else y :: insert_sorted x t
  end.
Definition py_sort (l : list A) : list A := fold_right insert_sorted [] l.

Lemma insert_sorted_perm x l : Permutation (x :: l) (insert_sorted x l).
Proof.
  induction l as [|y t IH]; cbn; [apply Permutation_refl|].
  destruct (le x y); [apply Permutation_refl|].
  eapply Permutation_trans; [apply perm_swap|]. constructor. exact IH.
Qed.
Lemma py_sort_perm l : Permutation l (py_sort l).
Proof.
  induction l as [|x t IH]; cbn; [constructor|].
  eapply Permutation_trans; [apply perm_skip; exact IH|apply insert_sorted_perm].
Qed.
Lemma py_sort_length l : length (py_sort l) = length l.
Proof. symmetry. apply Permutation_length, py_sort_perm. Qed.
Lemma py_sort_In x l : In x (py_sort l) <-> In x l.
Proof. split; apply Permutation_in; [apply Permutation_sym|]; apply py_sort_perm. Qed.

Definition equivb (x y : A) : bool := le x y && le y x.

Hypothesis le_total : forall x y, le x y = true \/ le y x = true.
Hypothesis le_trans : forall x y z, le x y = true -> le y z = true -> le x z = true.

Lemma insert_sorted_sorted x l : StronglySorted (fun a b => le a b = true) l ->
  StronglySorted (fun a b => le a b = true) (insert_sorted x l).
Proof.
  induction l as [|y t IH]; intros H; cbn.
  - repeat constructor.
  - inversion H as [|? ? Ht Hy]; subst. destruct (le x y) eqn:E.
    + constructor; [exact H|]. constructor; [exact E|].
      rewrite Forall_forall in *. intros z Hz. eapply le_trans; [exact E|apply Hy; exact Hz].
    + constructor; [apply IH; exact Ht|].
      apply Forall_forall. intros z Hz.
      apply (Permutation_in _ (Permutation_sym (insert_sorted_perm x t))) in Hz.
      destruct Hz as [<-|Hz].
      * destruct (le_total x y) as [C|C]; [congruence|exact C].
      * rewrite Forall_forall in Hy. apply Hy. exact Hz.
Qed.
Lemma py_sort_sorted l : StronglySorted (fun a b => le a b = true) (py_sort l).
Proof. induction l as [|x t IH]; cbn; [constructor|]. apply insert_sorted_sorted. exact IH. Qed.

(** Elements equivalent to [a] keep their relative order. *)
Lemma insert_sorted_filter a x l :
  filter (equivb a) (insert_sorted x l) = filter (equivb a) (x :: l).
Proof.
  induction l as [|y t IH]; [reflexivity|]. cbn [insert_sorted]. destruct (le x y) eqn:E; [reflexivity|].
  cbn [filter] in *. rewrite IH. cbn [filter].
  destruct (equivb a y) eqn:Ey; [|reflexivity].
  destruct (equivb a x) eqn:Ex; [|reflexivity]. exfalso.
  unfold equivb in *. apply andb_true_iff in Ey. apply andb_true_iff in Ex.
  assert (le x y = true) by (eapply le_trans; [apply Ex|apply Ey]). congruence.
Qed.
Lemma py_sort_stable a l : filter (equivb a) (py_sort l) = filter (equivb a) l.
Proof.
  induction l as [|x t IH]; cbn [py_sort fold_right]; [reflexivity|].
  rewrite insert_sorted_filter. cbn [filter]. unfold py_sort in IH. rewrite IH. reflexivity.
Qed.

Lemma insert_sorted_head x l : (forall y, In y l -> le x y = true) -> insert_sorted x l = x :: l.
Proof. destruct l as [|y t]; intros H; [reflexivity|]. cbn. rewrite (H y (or_introl eq_refl)). reflexivity. Qed.
Lemma py_sort_of_sorted l : StronglySorted (fun a b => le a b = true) l -> py_sort l = l.
Proof.
  induction l as [|x t IH]; intros H; [reflexivity|]. inversion H as [|? ? Ht Hx]; subst.
  cbn [py_sort fold_right]. fold (py_sort t). rewrite IH by exact Ht.
  apply insert_sorted_head. rewrite Forall_forall in Hx. exact Hx.
Qed.
Lemma py_sort_idem l : py_sort (py_sort l) = py_sort l.
Proof. apply py_sort_of_sorted. apply py_sort_sorted. Qed.
End Sort.

(** Comparison of tuples of numbers: first difference decides. *)
Fixpoint lex_le (a b : list Q) : bool :=
  match a, b with
  | x :: a', y :: b' => if qeq x y then lex_le a' b' else qlt x y
  | [], _ => true
  | _ :: _, [] => false
  end.
Lemma lex_le_total a : forall b, lex_le a b = true \/ lex_le b a = true.
Proof.
  induction a as [|x a IH]; intros [|y b]; cbn; auto.
  destruct (qeq_spec x y) as [E|E], (qeq_spec y x) as [E2|E2]; try (exfalso; lra); [apply IH|].
  destruct (qlt_spec x y) as [L|L]; [left; reflexivity|]. destruct (qlt_spec y x) as [L2|L2]; [right; reflexivity|].
  exfalso. lra.
Qed.
Lemma lex_le_trans a : forall b c, lex_le a b = true -> lex_le b c = true -> lex_le a c = true.
Proof.
  induction a as [|x a IH]; intros [|y b] [|z c]; cbn; auto; try discriminate.
  destruct (qeq_spec x y) as [E|E], (qeq_spec y z) as [E2|E2], (qeq_spec x z) as [E3|E3]; try (exfalso; lra); intros H1 H2.
  - eapply IH; eassumption.
  - destruct (qlt_spec y z); [|discriminate]. destruct (qlt_spec x z); [reflexivity|lra].
  - destruct (qlt_spec x y); [|discriminate]. destruct (qlt_spec x z); [reflexivity|lra].
  - destruct (qlt_spec x y); [|discriminate]. destruct (qlt_spec y z); [|discriminate]. exfalso. lra.
  - destruct (qlt_spec x y); [|discriminate]. destruct (qlt_spec y z); [|discriminate].
    destruct (qlt_spec x z); [reflexivity|lra].
Qed.

(** [l.sort(key=key)]. *)
Definition sort_key {A} (key : A -> list Q) (l : list A) : list A :=
  py_sort (fun a b => lex_le (key a) (key b)) l.
