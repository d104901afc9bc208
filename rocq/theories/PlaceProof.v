(** Lines that are rows of their own; paragraphs of a document. *)
From Verif Require Import GraphModel GraphSpec GraphProof.
From Coq Require Import Lia.
Open Scope nat_scope.

(** Items without anything in common are groups of their own, in order. *)
Lemma links_none {A} (f : A -> A -> bool) (l : list A) : forall ps g, (forall ij, In ij ps -> linked f l ij = false) ->
  fold_left (fun g ij => if linked f l ij then link (fst ij) (snd ij) g else g) ps g = g.
Proof. induction ps as [|p ps IH]; intros g H; [reflexivity|]. cbn [fold_left]. rewrite (H p (or_introl eq_refl)). apply IH. intros q Hq. apply H. right. exact Hq. Qed.
Lemma bfs_alone n i : i < n -> bfs_from_node (repeat [] n) i = Some [i].
Proof.
  intros H. unfold bfs_from_node. assert (B : exists f, bfs_fuel (repeat [] n) = S (S f)) by (eexists; reflexivity). destruct B as (f & ->). cbn [bfs_loop memb existsb].
  assert (N : nth_error (repeat (@nil nat) n) i = Some []) by (rewrite (nth_error_nth' _ []) by (rewrite repeat_length; exact H); rewrite nth_repeat; reflexivity).
  rewrite N. reflexivity.
Qed.
Lemma bfs_alone_all n : forall todo counted, (forall i, In i todo -> i < n) -> NoDup todo -> (forall i, In i todo -> ~ In i counted) ->
  graph_bfs_loop (repeat [] n) todo counted = Some (map (fun i => [i]) todo).
Proof.
  induction todo as [|i t IH]; intros counted H ND C; [reflexivity|]. cbn [graph_bfs_loop map]. inversion ND as [|? ? Ni ND']; subst.
  assert (M : memb i counted = false) by (apply memb_nIn, C; left; reflexivity). rewrite M, bfs_alone by (apply H; left; reflexivity).
  rewrite IH; [reflexivity|intros j Hj; apply H; right; exact Hj|exact ND'|]. intros j Hj [->|K]; [contradiction|]. apply (C j); [right; exact Hj|exact K].
Qed.
Lemma group_alone {A} (f : A -> A -> bool) order (l : list A) : (forall l, Permutation l (order l)) ->
  (forall i j a b, i < j -> nth_error l i = Some a -> nth_error l j = Some b -> f a b = false) -> group f order l = Some (map (fun x => [x]) l).
Proof.
  intros Ho H. assert (A0 : adjacency f l = repeat [] (length l)).
  { unfold adjacency. apply links_none. intros (i, j) Hij. apply pairs_In in Hij. unfold linked. cbn [fst snd]. destruct (nth_error l i) as [a|] eqn:Ea; [|reflexivity]. destruct (nth_error l j) as [b|] eqn:Eb; [|reflexivity]. apply (H i j); [lia|exact Ea|exact Eb]. }
  assert (O0 : order [] = []) by (apply Permutation_nil, Ho). assert (O1 : forall x, order [x] = [x]) by (intros x; apply Permutation_length_1_inv, Ho).
  unfold group, group_indexes. rewrite A0. assert (M : map order (repeat [] (length l)) = repeat [] (length l)) by (clear - O0; induction (length l) as [|n IH]; [reflexivity|]; cbn [repeat map]; rewrite O0, IH; reflexivity).
  rewrite M. unfold graph_bfs. rewrite repeat_length, bfs_alone_all; [|intros i Hi; apply in_seq in Hi; lia|apply seq_NoDup|intros i _ []].
  f_equal. rewrite !map_map. rewrite (map_ext (fun x => flat_map (item_at l) (order [x])) (item_at l)) by (intros x; rewrite O1; cbn [flat_map]; apply app_nil_r).
  clear. assert (G : forall l2 pre : list A, map (item_at (pre ++ l2)) (seq (length pre) (length l2)) = map (fun x => [x]) l2).
  { induction l2 as [|x t IH]; intros pre; [reflexivity|]. cbn [length seq map]. unfold item_at at 1. rewrite nth_error_app2 by lia. rewrite Nat.sub_diag. cbn [nth_error]. f_equal.
    specialize (IH (pre ++ [x])). rewrite <- app_assoc in IH. cbn [app] in IH. rewrite app_length, Nat.add_1_r in IH. exact IH. }
  exact (G l []).
Qed.
