(** Property theorems for graph_bfs and Collection.group (C14, C15). *)
From Verif Require Import GraphModel GraphSpec GraphProof.
From Coq Require Import Relations.

(** C14: for any graph over its own nodes (directed or not) the search
    terminates without error, every node is in some group, nothing else is, and
    each group is exactly what is reachable from its first node. *)
Theorem C14_search_total_and_covering : forall g, in_range g ->
  exists gs, graph_bfs g = Some gs /\
    (forall grp, In grp gs -> NoDup grp /\ exists s t, grp = s :: t /\ s < length g /\ forall x, In x grp <-> reach g s x) /\
    (forall x, x < length g <-> In x (concat gs)).
Proof. exact graph_bfs_total. Qed.
Print Assumptions C14_search_total_and_covering.

(** C14: for an undirected graph the groups are the connected components: no
    node twice, same group iff connected, each group led by its smallest
    member, groups in increasing order of smallest member. *)
Theorem C14_connected_components : forall g, in_range g -> symmetric_graph g ->
  exists gs, graph_bfs g = Some gs /\
    NoDup (concat gs) /\ (forall x, x < length g <-> In x (concat gs)) /\
    (forall grp x y, In grp gs -> In x grp -> (In y grp <-> reach g x y)) /\
    (forall grp, In grp gs -> exists h t, grp = h :: t /\ forall x, In x grp -> h <= x) /\
    (forall a b h1 h2 t1 t2, a < b -> nth_error gs a = Some (h1 :: t1) -> nth_error gs b = Some (h2 :: t2) -> h1 < h2).
Proof. exact graph_bfs_components. Qed.
Print Assumptions C14_connected_components.

Definition demo_graph := [[2]; [3]; [0; 4]; [1]; [2]; []].
Example C14_nonvacuous : in_range demo_graph /\ symmetric_graph demo_graph /\
  graph_bfs demo_graph = Some [[0; 2; 4]; [1; 3]; [5]].
Proof.
  assert (H : forall a b, edge demo_graph a b -> (a, b) = (0, 2) \/ (a, b) = (1, 3) \/ (a, b) = (2, 0) \/ (a, b) = (2, 4) \/ (a, b) = (3, 1) \/ (a, b) = (4, 2)).
  { intros a b (ns & E & Hb). do 6 (destruct a as [|a]; [cbn in E; injection E as <-; cbn in Hb; intuition congruence|]).
    destruct a; discriminate. }
  split; [|split; [|reflexivity]].
  - intros a b Hab. apply H in Hab. cbn [demo_graph length]. intuition (match goal with E : (_, _) = _ |- _ => injection E as -> -> end; lia).
  - intros a b Hab. apply H in Hab.
    destruct Hab as [E|[E|[E|[E|[E|E]]]]]; injection E as -> ->; eexists; (split; [reflexivity|cbn; auto]).
Qed.

(** C14 finding: on a graph that is not symmetric the groups may overlap. *)
Theorem C14_directed_groups_disjoint_refuted : exists g gs, in_range g /\ graph_bfs g = Some gs /\ ~ NoDup (concat gs).
Proof.
  exists [[]; [0]], [[0]; [1; 0]]. split; [|split; [reflexivity|]].
  - intros a b (ns & E & Hb). destruct a as [|[|a]]; cbn in E.
    + injection E as <-. destruct Hb.
    + injection E as <-. destruct Hb as [<-|[]]. cbn. lia.
    + destruct a; discriminate.
  - cbn. intros H. inversion H as [|? ? Hn _]; subst. apply Hn. cbn. auto.
Qed.
Print Assumptions C14_directed_groups_disjoint_refuted.

(** C15: the groups of [Collection.group] partition the positions of the
    collection; two positions share a group iff a chain of related pairs links
    them; the result holds for every iteration order of Python sets. *)
Theorem C15_groups_are_chain_classes : forall (A : Type) (f : A -> A -> bool) (order : list nat -> list nat),
  (forall l, Permutation l (order l)) ->
  forall l, exists gs,
    group f order l = Some (map (fun grp => flat_map (item_at l) grp) gs) /\
    NoDup (concat gs) /\ (forall i, i < length l <-> In i (concat gs)) /\
    (forall grp, In grp gs -> grp <> []) /\
    (forall grp i j, In grp gs -> In i grp -> (In j grp <-> chained f l i j)).
Proof.
  intros A f order Ho l. destruct (group_indexes_spec f order Ho l) as (gs & E & H).
  exists gs. split; [|exact H]. unfold group. rewrite E. reflexivity.
Qed.
Print Assumptions C15_groups_are_chain_classes.

(** C15: no instance is lost or duplicated. *)
Theorem C15_groups_conserve_instances : forall (A : Type) (f : A -> A -> bool) (order : list nat -> list nat),
  (forall l, Permutation l (order l)) ->
  forall l, exists gs, group f order l = Some gs /\ Permutation (concat gs) l.
Proof. intros A f order Ho l. apply (group_perm f order Ho l). Qed.
Print Assumptions C15_groups_conserve_instances.
Example C15_nonvacuous : (forall l : list nat, Permutation l (rev l)) /\
  group (fun a b => Nat.leb (a - b + (b - a)) 1) (@rev nat) [10; 3; 11; 4; 20; 12] = Some [[12; 11; 10]; [4; 3]; [20]].
Proof. split; [apply Permutation_rev|reflexivity]. Qed.
