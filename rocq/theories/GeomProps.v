(** Property theorems for elements and collections (C17-C20, C43, C44). *)
From Verif Require Import GeomModel GeomSpec GeomProof.
Open Scope Q_scope.

(** C17: after any history of append/extend/insert/reset/pop on a collection
    whose owner starts with an empty box, the owner's box covers every proper
    element ever handed to it (in particular every member), is the smallest such
    box, and is a proper box iff one of them is. *)
Theorem C17_owner_box : forall ops,
  (forall e, In e (all_offered ops) -> normal_box (e_bbox e)) ->
  exists q, c_parent (coll_run (mkColl [] (Some rect0)) ops) = Some q /\ normal_box q /\
    (forall e, In e (all_offered ops) -> proper (e_bbox e) -> covers q (e_bbox e)) /\
    (forall c, (forall e, In e (all_offered ops) -> proper (e_bbox e) -> covers c (e_bbox e)) -> proper q -> covers c q) /\
    (proper q <-> exists e, In e (all_offered ops) /\ proper (e_bbox e)).
Proof. exact owner_box. Qed.
Print Assumptions C17_owner_box.
(** Members come from the calls and have a non-zero box. *)
Theorem C17_members : forall ops c e, In e (c_items (coll_run c ops)) ->
  In e (c_items c) \/ (In e (all_offered ops) /\ elem_bool e = true).
Proof. exact run_items_In. Qed.
Print Assumptions C17_members.
(** Appending keeps every element with a non-zero box, in order, and drops the others. *)
Theorem C17_append_only : forall es ops,
  (forall o, In o ops -> match o with Append _ | Extend _ => True | _ => False end) ->
  c_items (coll_run (mkColl es None) ops) = es ++ filter elem_bool (all_offered ops).
Proof. exact append_only. Qed.
Print Assumptions C17_append_only.
(** Nothing ever shrinks the owner's box. *)
Theorem C17_never_shrinks : forall c ops p, c_parent c = Some p -> normal_box p -> proper p ->
  (forall e, In e (all_offered ops) -> normal_box (e_bbox e)) ->
  exists q, c_parent (coll_run c ops) = Some q /\ covers q p.
Proof. exact owner_box_grows. Qed.
Print Assumptions C17_never_shrinks.
(** The hypothesis on boxes: every box set through update_bbox is normal. *)
Theorem C17_boxes_are_normal : forall e r, valid r -> normal_box (e_bbox (update_bbox e r)).
Proof. intros e r H. split; [apply rround_valid; exact H|apply rround_decimal]. Qed.
Print Assumptions C17_boxes_are_normal.
Definition el (i : nat) (a b c d : Q) : elem := mkElem i (mkRect a b c d) LEFT_RIGHT.
Example C17_nonvacuous :
  let ops := [Append (el 1 10 10 20 20); Insert 0 (el 2 5 12 8 15); Append (el 3 0 0 0 0); Pop (-1)] in
  (forall e, In e (all_offered ops) -> normal_box (e_bbox e)) /\
  map e_id (c_items (coll_run (mkColl [] (Some rect0)) ops)) = [2%nat] /\
  exists q, c_parent (coll_run (mkColl [] (Some rect0)) ops) = Some q /\ req q (mkRect 5 10 20 20).
Proof.
  split; [|split; [vm_compute; reflexivity|]].
  - assert (D : forall z : Z, decimal 10 (inject_Z z)).
    { intros z. exists (z * 10)%Z. rewrite inject_Z_mult. unfold Qdiv. rewrite <- Qmult_assoc, Qmult_inv_r; [lra|discriminate]. }
    intros e [<-|[<-|[<-|[]]]]; (split; [unfold valid; cbn; lra|unfold rect_decimal; cbn; repeat split]);
      first [exact (D 0%Z)|exact (D 5%Z)|exact (D 8%Z)|exact (D 10%Z)|exact (D 12%Z)|exact (D 15%Z)|exact (D 20%Z)].
  - eexists. split; [vm_compute; reflexivity|]. unfold req. repeat split; reflexivity.
Qed.
(** [insert]: the others keep their order; the new element has [nth] members before it, or, for a negative [nth], [-nth] members behind it -
    as many as there are, if there are fewer. *)
Theorem C17_insert : forall c nth e, elem_bool e = true -> exists before after,
  c_items c = before ++ after /\ c_items (insert c nth e) = before ++ e :: after /\
  ((0 <= nth)%Z -> Z.of_nat (length before) = Z.min nth (Z.of_nat (length (c_items c)))) /\
  ((nth < 0)%Z -> Z.of_nat (length after) = Z.min (- nth) (Z.of_nat (length (c_items c)))).
Proof.
  intros c nth e E. unfold insert. rewrite E. cbn [c_items]. set (k := insert_pos (c_items c) nth). exists (firstn k (c_items c)), (skipn k (c_items c)).
  split; [symmetry; apply firstn_skipn|]. split; [reflexivity|]. rewrite firstn_length, skipn_length. unfold k, insert_pos, zlen. split; intros H.
  - destruct (Z.ltb_spec nth 0); [lia|]. lia.
  - destruct (Z.ltb_spec nth 0); [|lia]. lia.
Qed.
Print Assumptions C17_insert.
(** [pop] takes out the one member with [nth] members before it, or, for a negative [nth], [-nth - 1] members behind it, and nothing if there is none. *)
Theorem C17_pop : forall c nth, c_parent (pop c nth) = c_parent c /\
  ((- Z.of_nat (length (c_items c)) <= nth < Z.of_nat (length (c_items c)))%Z -> exists before x after,
    c_items c = before ++ x :: after /\ c_items (pop c nth) = before ++ after /\
    ((0 <= nth)%Z -> Z.of_nat (length before) = nth) /\ ((nth < 0)%Z -> Z.of_nat (length after) = (- nth - 1)%Z)) /\
  (~ (- Z.of_nat (length (c_items c)) <= nth < Z.of_nat (length (c_items c)))%Z -> pop c nth = c).
Proof.
  intros c nth. unfold pop. destruct (norm_index (zlen (c_items c)) nth) as [k|] eqn:E.
  - assert (K : (k < length (c_items c))%nat /\ ((0 <= nth)%Z -> Z.of_nat k = nth) /\ ((nth < 0)%Z -> Z.of_nat k = (Z.of_nat (length (c_items c)) + nth)%Z) /\ (- Z.of_nat (length (c_items c)) <= nth < Z.of_nat (length (c_items c)))%Z).
    { unfold norm_index, zlen in E. destruct ((0 <=? nth) && (nth <? Z.of_nat (length (c_items c))))%Z eqn:E1.
      - apply andb_true_iff in E1. destruct E1 as (A & B). apply Z.leb_le in A. apply Z.ltb_lt in B. injection E as <-. split; [lia|]. split; [lia|]. split; lia.
      - destruct ((- Z.of_nat (length (c_items c)) <=? nth) && (nth <? 0))%Z eqn:E2; [|discriminate E]. apply andb_true_iff in E2. destruct E2 as (A & B). apply Z.leb_le in A. apply Z.ltb_lt in B. injection E as <-. split; [lia|]. split; [lia|]. split; lia. }
    destruct K as (K & K1 & K2 & K3). split; [reflexivity|]. split; [intros _|intros X; exfalso; exact (X K3)].
    destruct (nth_error (c_items c) k) as [x|] eqn:Ex; [|apply nth_error_None in Ex; lia]. destruct (nth_error_split _ _ Ex) as (a & b & Eq & La). exists a, x, b.
    split; [exact Eq|]. cbn [c_items]. subst k. split; [|split; [exact K1|intros H; specialize (K2 H); rewrite Eq, app_length in K2; cbn [length] in K2; lia]].
    rewrite Eq. rewrite firstn_app, Nat.sub_diag, firstn_all. cbn [firstn]. rewrite app_nil_r, skipn_app. rewrite (skipn_all2 a) by lia. replace (S (length a) - length a)%nat with 1%nat by lia. reflexivity.
  - split; [reflexivity|]. split; [|reflexivity]. intros H. exfalso. unfold norm_index, zlen in E.
    destruct ((0 <=? nth) && (nth <? Z.of_nat (length (c_items c))))%Z eqn:E1; [discriminate E|]. destruct ((- Z.of_nat (length (c_items c)) <=? nth) && (nth <? 0))%Z eqn:E2; [discriminate E|].
    apply andb_false_iff in E1. apply andb_false_iff in E2. destruct E1 as [E1|E1], E2 as [E2|E2]; apply Z.leb_gt in E1 || apply Z.ltb_ge in E1; apply Z.leb_gt in E2 || apply Z.ltb_ge in E2; lia.
Qed.
Print Assumptions C17_pop.
Example C17_insert_nonvacuous : let c := mkColl [el 1 10 10 20 20; el 2 10 30 20 40; el 3 10 50 20 60] None in
  map e_id (c_items (insert c (-1) (el 9 1 1 2 2))) = [1; 2; 9; 3]%nat /\ map e_id (c_items (insert c 7 (el 9 1 1 2 2))) = [1; 2; 3; 9]%nat /\ map e_id (c_items (pop c (-2))) = [1; 3]%nat.
Proof. repeat split. Qed.
(** Finding: a member with a non-zero but flat box (a ruling line) is kept without
    being covered. *)
Theorem C17_flat_member_refuted : exists ops e q,
  In e (c_items (coll_run (mkColl [] (Some rect0)) ops)) /\
  c_parent (coll_run (mkColl [] (Some rect0)) ops) = Some q /\ ~ covers q (e_bbox e).
Proof.
  exists [Append (el 1 10 10 20 10)], (el 1 10 10 20 10). eexists. split; [left; reflexivity|]. split; [vm_compute; reflexivity|].
  unfold covers. cbn. lra.
Qed.
Print Assumptions C17_flat_member_refuted.

(** C18: alignment = overlap of the extents of at least factor * shorter extent. *)
Theorem C18_vertical_alignment : forall a b f,
  vertically_align_with a b f false = true <->
  elem_bool a = true /\ elem_bool b = true /\
  f * qmin (rwidth (e_bbox a)) (rwidth (e_bbox b)) <= common (rx0 (e_bbox a)) (rx1 (e_bbox a)) (rx0 (e_bbox b)) (rx1 (e_bbox b)).
Proof. exact valign_iff. Qed.
Print Assumptions C18_vertical_alignment.
Theorem C18_horizontal_alignment : forall a b f,
  horizontally_align_with a b f false = true <->
  elem_bool a = true /\ elem_bool b = true /\
  f * qmin (rheight (e_bbox a)) (rheight (e_bbox b)) <= common (ry0 (e_bbox a)) (ry1 (e_bbox a)) (ry0 (e_bbox b)) (ry1 (e_bbox b)).
Proof. exact halign_iff. Qed.
Print Assumptions C18_horizontal_alignment.
(** With the text direction considered, vertical text exchanges the axes. *)
Theorem C18_text_direction : forall a b f,
  (is_horizontal (e_dir a) = true ->
     vertically_align_with a b f true = vertically_align_with a b f false /\
     horizontally_align_with a b f true = horizontally_align_with a b f false) /\
  (is_horizontal (e_dir a) = false ->
     vertically_align_with a b f true = horizontally_align_with a b f false /\
     horizontally_align_with a b f true = vertically_align_with a b f false).
Proof. intros a b f. split; [apply align_undirected|apply align_directed]. Qed.
Print Assumptions C18_text_direction.
Theorem C18_symmetric : forall a b f td, (td = true -> e_dir a = e_dir b) ->
  vertically_align_with a b f td = vertically_align_with b a f td /\
  horizontally_align_with a b f td = horizontally_align_with b a f td /\
  (elem_bool a = true -> elem_bool b = true -> in_same_row a b = in_same_row b a).
Proof. intros a b f td H. split; [apply valign_sym; exact H|]. split; [apply halign_sym; exact H|apply same_row_sym]. Qed.
Print Assumptions C18_symmetric.
Theorem C18_reflexive : forall a f td, proper (e_bbox a) -> f <= 1 ->
  vertically_align_with a a f td = true /\ horizontally_align_with a a f td = true /\ in_same_row a a = true.
Proof. intros a f td P H. destruct (align_self a f td P H). split; [assumption|]. split; [assumption|apply same_row_self; exact P]. Qed.
Print Assumptions C18_reflexive.
(** Two elements in the same row have the same direction and really overlap across the row. *)
Theorem C18_same_row_overlaps : forall a b, proper (e_bbox a) -> proper (e_bbox b) -> in_same_row a b = true ->
  e_dir a = e_dir b /\
  let axis := is_horizontal (e_dir a) in
  0 < common (lo axis (e_bbox a)) (hi axis (e_bbox a)) (lo axis (e_bbox b)) (hi axis (e_bbox b)).
Proof. exact same_row_meets. Qed.
Print Assumptions C18_same_row_overlaps.
Example C18_nonvacuous :
  proper (e_bbox (el 1 0 0 10 10)) /\ vertically_align_with (el 1 0 0 10 10) (el 2 5 20 30 40) (1#2) true = true /\
  horizontally_align_with (el 1 0 0 10 10) (el 2 5 20 30 40) 0 true = false /\
  in_same_row (el 1 0 0 10 10) (el 2 50 4 60 14) = true /\ in_same_row (el 1 0 0 10 10) (el 2 50 6 60 16) = false.
Proof. split; [unfold proper; cbn; lra|vm_compute; auto]. Qed.
(** Finding: for mixed directions the answer depends on the order of arguments. *)
Theorem C18_mixed_directions_refuted : exists a b,
  proper (e_bbox a) /\ proper (e_bbox b) /\
  vertically_align_with a b 0 true <> vertically_align_with b a 0 true.
Proof.
  exists (el 1 0 0 10 10), (mkElem 2 (mkRect 5 20 30 40) BOTTOM_TOP).
  split; [unfold proper; cbn; lra|]. split; [unfold proper; cbn; lra|]. vm_compute. discriminate.
Qed.
Print Assumptions C18_mixed_directions_refuted.

(** C19: the two parts of split_with_intersection. *)
Theorem C19_split_is_partition : forall l b th l1 l2,
  split_with_intersection l b th = Some (l1, l2) ->
  Permutation (l1 ++ l2) l /\
  l1 = filter (fun e => qle th (round2 (inside_ratio e b))) l /\
  l2 = filter (fun e => negb (qle th (round2 (inside_ratio e b)))) l.
Proof.
  intros l b th l1 l2 H. pose proof (split_spec l b th) as S. rewrite H in S. destruct S as (_ & -> & ->).
  split; [apply filter_partition_perm|]. split; reflexivity.
Qed.
Print Assumptions C19_split_is_partition.
Theorem C19_raises_iff_zero_area : forall l b th,
  split_with_intersection l b th = None <-> exists e, In e l /\ area (e_bbox e) == 0.
Proof.
  intros l b th. pose proof (split_spec l b th) as S. destruct (split_with_intersection l b th) as [[l1 l2]|].
  - destruct S as (H & _). split; [discriminate|]. intros (e & He & E). exfalso. exact (H e He E).
  - split; [intros _; exact S|reflexivity].
Qed.
Print Assumptions C19_raises_iff_zero_area.
(** Elements inside the region go first for every threshold up to 1, elements
    apart from it go second for every positive threshold, and in between the
    area ratio decides up to the rounding to two decimals. *)
Theorem C19_split_meaning : forall l b th l1 l2 e,
  split_with_intersection l b th = Some (l1, l2) -> In e l -> proper (e_bbox e) -> proper b ->
  (In e l1 -> th - (1 # 200) <= inside_ratio e b) /\
  (In e l2 -> inside_ratio e b < th + (1 # 200)) /\
  (covers b (e_bbox e) -> th <= 1 -> In e l1) /\
  ((rx1 (e_bbox e) <= rx0 b \/ rx1 b <= rx0 (e_bbox e) \/ ry1 (e_bbox e) <= ry0 b \/ ry1 b <= ry0 (e_bbox e)) -> 0 < th -> In e l2).
Proof.
  intros l b th l1 l2 e H He Pe Pb. pose proof (split_spec l b th) as S. rewrite H in S. destruct S as (_ & -> & ->).
  pose proof (round2_bound (inside_ratio e b)) as B. rewrite !filter_In. split; [|split; [|split]].
  - intros [_ Q]. apply qle_iff in Q. lra.
  - intros [_ Q]. apply negb_true_iff in Q. destruct (qle_spec th (round2 (inside_ratio e b))); [discriminate|]. lra.
  - intros C Ht. split; [exact He|]. apply qle_iff.
    assert (E : round2 (inside_ratio e b) == 1).
    { rewrite (round_p_comp 100 _ 1 (ratio_covered e b Pe C)). apply round_p_fixed. exists 100%Z. reflexivity. }
    rewrite E. exact Ht.
  - intros D Ht. split; [exact He|]. apply negb_true_iff.
    assert (E : round2 (inside_ratio e b) == 0).
    { rewrite (round_p_comp 100 _ 0 (ratio_apart e b Pe Pb D)). apply round_p_fixed, decimal_0. }
    destruct (qle_spec th (round2 (inside_ratio e b))) as [L|L]; [exfalso; lra|reflexivity].
Qed.
Print Assumptions C19_split_meaning.
Example C19_nonvacuous : exists l1 l2,
  split_with_intersection [el 1 0 0 10 10; el 2 5 0 15 10; el 3 20 0 30 10; el 4 1 1 9 9] (mkRect 0 0 10 10) (3#4) = Some (l1, l2) /\
  map e_id l1 = [1; 4]%nat /\ map e_id l2 = [2; 3]%nat.
Proof. eexists. eexists. split; [vm_compute; reflexivity|]. split; reflexivity. Qed.
(** [contained_in_bbox]: the elements wholly inside the region, as often and in the order they were; those without extent
    are always taken. *)
Theorem C19_contained : forall l b, proper b ->
  exists keep, contained_in_bbox l b = filter keep l /\
    (forall e, In e l -> proper (e_bbox e) -> (keep e = true <-> covers b (e_bbox e))) /\
    (forall e, In e l -> rx0 (e_bbox e) == rx1 (e_bbox e) \/ ry0 (e_bbox e) == ry1 (e_bbox e) -> keep e = true).
Proof.
  intros l b Pb. exists (fun e => rcontains b (e_bbox e)). split; [reflexivity|]. unfold rcontains. rewrite (proper_nonempty b Pb). split.
  - intros e _ Pe. rewrite (proper_nonempty _ Pe), !andb_true_iff, !qle_iff. unfold covers. tauto.
  - intros e _ H. assert (E : rect_empty (e_bbox e) = true) by (unfold rect_empty; rewrite orb_true_iff, !qeq_iff; exact H). rewrite E. reflexivity.
Qed.
Print Assumptions C19_contained.
Example C19_contained_nonvacuous : map e_id (contained_in_bbox [el 1 0 0 10 10; el 2 5 0 15 10; el 3 20 0 30 10; el 4 1 1 9 9; el 5 20 20 20 30] (mkRect 0 0 10 10)) = [1; 4; 5]%nat.
Proof. vm_compute. reflexivity. Qed.
(** Finding: with the default threshold 0 the second part is always empty, even for
    elements which do not touch the region. *)
Theorem C19_default_threshold_refuted : forall l b,
  (forall e, In e l -> proper (e_bbox e)) -> proper b -> split_with_intersection l b 0 = Some (l, []).
Proof. exact split_default_threshold. Qed.
Print Assumptions C19_default_threshold_refuted.

(** C20: sorting is a permutation, ordered, stable (elements at the same position
    keep their order: any class [g] of elements equal in the order is listed as
    before) and idempotent. *)
Theorem C20_reading_order : forall l, let h := is_horizontal (coll_dir l) in
  Permutation l (sort_in_reading_order l) /\ StronglySorted (reading_before h) (sort_in_reading_order l) /\
  (forall g, (forall a b, g b = true -> (g a = true <-> reading_before h a b /\ reading_before h b a)) ->
     filter g (sort_in_reading_order l) = filter g l) /\
  sort_in_reading_order (sort_in_reading_order l) = sort_in_reading_order l.
Proof. exact sort_reading_facts. Qed.
Print Assumptions C20_reading_order.
Theorem C20_line_order : forall l, let h := is_horizontal (coll_dir l) in
  Permutation l (sort_in_line_order l) /\ StronglySorted (line_before h) (sort_in_line_order l) /\
  (forall g, (forall a b, g b = true -> (g a = true <-> line_before h a b /\ line_before h b a)) ->
     filter g (sort_in_line_order l) = filter g l) /\
  sort_in_line_order (sort_in_line_order l) = sort_in_line_order l.
Proof. exact sort_line_facts. Qed.
Print Assumptions C20_line_order.
(** The direction used: that of the members when they agree, else left to right. *)
Theorem C20_direction : forall l d,
  (l <> [] -> (forall e, In e l -> e_dir e = d) -> coll_dir l = d) /\
  ((exists a b, In a l /\ In b l /\ e_dir a <> e_dir b) -> coll_dir l = LEFT_RIGHT).
Proof.
  intros l d. destruct l as [|e t]; [split; [congruence|reflexivity]|]. split.
  - intros _ H. cbn. rewrite (proj2 (forallb_forall _ _)); [apply H; left; reflexivity|].
    intros x Hx. rewrite (H x (or_intror Hx)), (H e (or_introl eq_refl)). destruct (dir_eqb_spec d d); congruence.
  - intros (a & b & Ha & Hb & Hne). cbn. destruct (forallb (fun x => dir_eqb (e_dir x) (e_dir e)) t) eqn:F; [|reflexivity].
    exfalso. apply Hne. rewrite forallb_forall in F.
    assert (G : forall x, In x (e :: t) -> e_dir x = e_dir e).
    { intros x [<-|Hx]; [reflexivity|]. specialize (F x Hx). destruct (dir_eqb_spec (e_dir x) (e_dir e)); [assumption|discriminate]. }
    rewrite (G a Ha), (G b Hb). reflexivity.
Qed.
Print Assumptions C20_direction.
Example C20_nonvacuous : map e_id (sort_in_reading_order [el 1 50 10 60 20; el 2 0 30 9 40; el 3 10 10 20 20; el 4 10 10 20 25]) = [3; 4; 1; 2]%nat
  /\ map e_id (sort_in_line_order [el 1 50 10 60 20; el 2 0 30 9 40; el 3 10 10 20 20]) = [2; 3; 1]%nat.
Proof. split; vm_compute; reflexivity. Qed.

(** C43: Element.contains agrees with geometry. *)
Theorem C43_contains_covered : forall self e th, proper e -> covers self e -> th <= 1 -> contains self e th = true.
Proof. exact contains_covered. Qed.
Print Assumptions C43_contains_covered.
Theorem C43_contains_sound : forall self e th, proper self -> proper e -> contains self e th = true ->
  th - (1 # 200) <= area (rinter self e) / area e /\
  (rheight self <= rwidth self -> rwidth e <= rwidth self + 1) /\
  (rwidth self < rheight self -> rheight e <= rheight self + 1).
Proof. exact contains_ratio. Qed.
Print Assumptions C43_contains_sound.
Theorem C43_contains_apart : forall self e th, proper self -> proper e -> 0 < th ->
  (rx1 e <= rx0 self \/ rx1 self <= rx0 e \/ ry1 e <= ry0 self \/ ry1 self <= ry0 e) ->
  contains self e th = false.
Proof. exact contains_disjoint. Qed.
Print Assumptions C43_contains_apart.
Theorem C43_flat_never_contained : forall self e th, area e == 0 -> contains self e th = false.
Proof. intros self e th H. unfold contains. cbv zeta. rewrite (proj2 (qeq_iff _ _) H). reflexivity. Qed.
Print Assumptions C43_flat_never_contained.
Example C43_nonvacuous : proper (mkRect 0 0 10 10) /\ contains (mkRect 0 0 10 10) (mkRect 1 1 9 9) 1 = true /\
  contains (mkRect 0 0 10 10) (mkRect 1 1 11 9) (9#10) = true /\ contains (mkRect 0 0 10 10) (mkRect 1 1 11 9) 1 = false.
Proof. split; [unfold proper; cbn; lra|vm_compute; auto]. Qed.

(** C44: get_main_bbox returns the smallest box covering both exactly when the
    common area reaches the threshold part of the smaller box. *)
Theorem C44_main_bbox_covers : forall b1 b2 th r, proper b1 -> proper b2 -> get_main_bbox b1 b2 th = Some r ->
  covers r b1 /\ covers r b2 /\ forall c, covers c b1 -> covers c b2 -> covers c r.
Proof. exact main_bbox_covers. Qed.
Print Assumptions C44_main_bbox_covers.
Theorem C44_main_bbox_iff : forall b1 b2 th, proper b1 -> proper b2 -> 1 # 1000000 < th ->
  (get_main_bbox b1 b2 th <> None <-> 0 < area (rinter b1 b2) /\ th * qmin (area b1) (area b2) <= area (rinter b1 b2)).
Proof. exact main_bbox_ratio. Qed.
Print Assumptions C44_main_bbox_iff.
Theorem C44_no_zero_division : forall b1 b2, valid b1 -> valid b2 -> ~ area (rinter b1 b2) == 0 ->
  0 < qmin (area b1) (area b2).
Proof. exact main_bbox_divisor. Qed.
Print Assumptions C44_no_zero_division.
Example C44_nonvacuous : get_main_bbox (mkRect 0 0 10 10) (mkRect 1 0 11 10) (9#10) <> None /\
  get_main_bbox (mkRect 0 0 10 10) (mkRect 2 0 12 10) (9#10) = None.
Proof. split; vm_compute; congruence. Qed.
