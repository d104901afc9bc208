(** Property theorems for the rectangle-intersection sweep (C16). *)
From Verif Require Import InterModel InterSpec InterProof.
From Coq Require Import Relations.
Open Scope Q_scope.

(** C16 soundness: every reported pair overlaps. *)
Theorem C16_report_sound : forall rs i j, (forall r, In r rs -> proper r) -> In (i, j) (report rs) ->
  overlapping overlap_x_closed rs i j.
Proof.
  intros rs i j V H. destruct (report_sound rs (i, j)) as (a & b & Ha & Hb & T).
  - intros r Hr. destruct (V r Hr). lra.
  - exact H.
  - exists a, b. cbn [fst snd] in *. split; [exact Ha|]. split; [exact Hb|].
    apply touching_overlap; [apply nth_error_In in Ha; apply V in Ha; destruct Ha; assumption
                            |apply nth_error_In in Hb; apply V in Hb; destruct Hb; assumption|exact T].
Qed.
Print Assumptions C16_report_sound.
(** C16 completeness when no left edge shares its x-coordinate with an edge of another box. *)
Theorem C16_report_complete : forall rs i j, (forall r, In r rs -> rx0 r < rx1 r) -> left_edges_distinct rs ->
  i <> j -> overlapping overlap_open rs i j -> In (i, j) (report rs) \/ In (j, i) (report rs).
Proof.
  intros rs i j V D Hij (a & b & Ha & Hb & H). apply (report_complete rs i j a b V Hij Ha Hb H); intros _; left.
  - intros k c Hk Hc. exact (D i k a c (not_eq_sym Hk) Ha Hc).
  - intros k c Hk Hc. exact (D j k b c (not_eq_sym Hk) Hb Hc).
Qed.
Print Assumptions C16_report_complete.
(** For one pair of boxes it suffices that the one that starts further right has a left edge of its own,
    or starts at the far left: the lines of a ruled table, of which many start together. *)
Theorem C16_pair_complete : forall rs i j, (forall r, In r rs -> rx0 r < rx1 r) -> i <> j -> clearly_overlapping rs i j ->
  In (i, j) (report rs) \/ In (j, i) (report rs).
Proof. intros rs i j V Hij (a & b & Ha & Hb & H & C1 & C2). exact (report_complete rs i j a b V Hij Ha Hb H C1 C2). Qed.
Print Assumptions C16_pair_complete.
Lemma widen_overlap dx dy rs (R R' : rect -> rect -> Prop) i j :
  (forall a b, R (widen dx dy a) (widen dx dy b) <-> R' a b) ->
  overlapping R (map (widen dx dy) rs) i j <-> overlapping R' rs i j.
Proof.
  intros H. unfold overlapping. rewrite !nth_error_map. split.
  - intros (a & b & A & B & C). destruct (nth_error rs i) as [a'|]; [|discriminate]. destruct (nth_error rs j) as [b'|]; [|discriminate].
    injection A as <-. injection B as <-. exists a', b'. rewrite <- H. auto.
  - intros (a & b & A & B & C). rewrite A, B. exists (widen dx dy a), (widen dx dy b). rewrite H. auto.
Qed.
Lemma clos_iff {A} (R R' : A -> A -> Prop) : (forall x y, R x y <-> R' x y) -> forall x y, clos_refl_trans A R x y <-> clos_refl_trans A R' x y.
Proof.
  intros H x y. split; induction 1 as [x y E|x|x y z _ IH1 _ IH2];
    [apply rt_step, H, E|apply rt_refl|eapply rt_trans; eassumption|apply rt_step, H, E|apply rt_refl|eapply rt_trans; eassumption].
Qed.
Lemma widen_proper dx dy rs : 0 <= dx -> 0 <= dy -> (forall r, In r rs -> proper r) -> forall r, In r (map (widen dx dy) rs) -> proper r.
Proof.
  intros Hx Hy H r Hr. apply in_map_iff in Hr. destruct Hr as (r' & <- & Hr). apply H in Hr. destruct Hr. unfold proper, widen, rplus. cbn. lra.
Qed.
(** group_by_connectivity(dx, dy) partitions the positions, and members of one group are
    linked by a chain of boxes with gaps of at most 2dx and less than 2dy. *)
Theorem C16_groups_sound : forall order dx dy rs, (forall l, Permutation l (order l)) -> 0 <= dx -> 0 <= dy ->
  (forall r, In r rs -> proper r) ->
  exists gs, group_by_connectivity order dx dy rs = Some gs /\
    NoDup (concat gs) /\ (forall i, (i < length rs)%nat <-> In i (concat gs)) /\
    (forall grp i j, In grp gs -> In i grp -> In j grp -> clos_refl_trans nat (overlapping (near_closed dx dy) rs) i j).
Proof.
  intros order dx dy rs Ho Hx Hy Hp. destruct (connectivity_sound order dx dy rs Ho (widen_proper dx dy rs Hx Hy Hp)) as (gs & A & B & C & D).
  exists gs. split; [exact A|]. split; [exact B|]. split; [exact C|]. intros grp i j Hg Hi Hj.
  eapply clos_iff; [|exact (D grp i j Hg Hi Hj)]. intros x y. symmetry. apply widen_overlap.
  intros a b. unfold overlap_x_closed, near_closed, widen, rplus. cbn. split; intros (E1 & E2 & E3 & E4); repeat split; lra.
Qed.
Print Assumptions C16_groups_sound.
(** Conversely chains of boxes with gaps less than 2dx and 2dy end in one group. *)
Theorem C16_groups_complete : forall order dx dy rs, (forall l, Permutation l (order l)) -> 0 <= dx -> 0 <= dy ->
  (forall r, In r rs -> proper r) -> left_edges_apart dx rs ->
  exists gs, group_by_connectivity order dx dy rs = Some gs /\
    (forall i j, (i < length rs)%nat -> clos_refl_trans nat (overlapping (near_open dx dy) rs) i j ->
       exists grp, In grp gs /\ In i grp /\ In j grp).
Proof.
  intros order dx dy rs Ho Hx Hy Hp Hd.
  destruct (connectivity_complete order dx dy rs Ho (widen_proper dx dy rs Hx Hy Hp)) as (gs & A & B).
  exists gs. split; [exact A|]. intros i j Hi H. apply B; [exact Hi|]. revert H. apply clos_mono.
  assert (C : forall x a, nth_error rs x = Some a -> clear_left (map (widen dx dy) rs) x (widen dx dy a)).
  { intros x a Ha. left. intros k c Hk Hc. rewrite nth_error_map in Hc. destruct (nth_error rs k) as [c'|] eqn:Ec; [|discriminate]. injection Hc as <-.
    destruct (Hd x k a c' (not_eq_sym Hk) Ha Ec) as [D1 D2]. unfold widen, rplus. cbn. split; intros E; [apply D1|apply D2]; lra. }
  intros x y (a & b & Ha & Hb & E1 & E2 & E3 & E4). exists (widen dx dy a), (widen dx dy b). rewrite !nth_error_map, Ha, Hb.
  split; [reflexivity|]. split; [reflexivity|]. split; [|split; intros _; apply C; assumption].
  unfold overlap_open, widen, rplus. cbn. repeat split; lra.
Qed.
Print Assumptions C16_groups_complete.
Example C16_tolerance : group_by_connectivity (fun l => l) (1 # 2) 3 [mkRect 0 0 10 10; mkRect 2 15 8 30] = Some [[0; 1]]%nat /\
  group_by_connectivity (fun l => l) 3 (1 # 2) [mkRect 0 0 10 10; mkRect 2 15 8 30] = Some [[0]; [1]]%nat.
Proof. vm_compute. auto. Qed.

Definition demo_boxes : list rect := [mkRect 0 0 10 10; mkRect 20 5 30 15; mkRect 8 8 22 9; mkRect 40 0 50 10].
Example C16_nonvacuous : (forall r, In r demo_boxes -> proper r) /\ left_edges_distinct demo_boxes /\
  group_by_connectivity (fun l => l) 0 0 demo_boxes = Some [[0; 2; 1]; [3]]%nat /\
  overlapping overlap_open demo_boxes 0 2.
Proof.
  split; [|split; [|split; [vm_compute; reflexivity|]]].
  - intros r H. cbn in H. intuition (subst; unfold proper; cbn; lra).
  - intros i j a b Hij Ha Hb.
    do 4 (destruct i as [|i]; [do 4 (destruct j as [|j]; [cbn in Ha, Hb; try congruence; injection Ha as <-; injection Hb as <-; cbn; lra|]);
      destruct j; discriminate|]).
    destruct i; discriminate.
  - exists (mkRect 0 0 10 10), (mkRect 8 8 22 9). split; [reflexivity|]. split; [reflexivity|]. unfold overlap_open. cbn. lra.
Qed.

(** Finding: two boxes that share their left edge coordinate (normal for table
    borders) can be missed, and whether they are depends on the order in which
    the boxes are given. *)
Theorem C16_shared_left_edge_refuted : exists rs rs' i j,
  Permutation rs rs' /\ (forall r, In r rs -> proper r) /\
  overlapping overlap_open rs i j /\ overlapping overlap_open rs' i j /\ i <> j /\
  group_by_connectivity (fun l => l) 0 0 rs = Some [[0]; [1]; [2]; [3]]%nat /\
  group_by_connectivity (fun l => l) 0 0 rs' = Some [[0]; [1; 2]; [3]]%nat.
Proof.
  exists [mkRect (-1) 50 20 60; mkRect 0 0 10 10; mkRect 0 0 5 10; mkRect 15 80 16 90],
         [mkRect (-1) 50 20 60; mkRect 0 0 5 10; mkRect 0 0 10 10; mkRect 15 80 16 90], 1%nat, 2%nat.
  split; [apply perm_skip; apply perm_swap|].
  split; [intros r H; cbn in H; intuition (subst; unfold proper; cbn; lra)|].
  split; [exists (mkRect 0 0 10 10), (mkRect 0 0 5 10); repeat split; try reflexivity; cbn; lra|].
  split; [exists (mkRect 0 0 5 10), (mkRect 0 0 10 10); repeat split; try reflexivity; cbn; lra|].
  split; [discriminate|]. split; vm_compute; reflexivity.
Qed.
Print Assumptions C16_shared_left_edge_refuted.
