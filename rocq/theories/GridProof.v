From Verif Require Import GeomModel GeomSpec GeomProof ShapeModel ParaModel ParaProof TableModel TableSpec TableProof TextProof StoreProof3 GridSpec.
From Verif Require TableProps.
From Coq Require Import List Lia Permutation Lqa Sorted.
Import ListNotations.
Open Scope Q_scope.

(* ------------------------------------------------------------------ *)
(** * One direction *)
Definition far (h : bool) (c : Q) (a b : shape) : Prop := c < Qabs (coord h a - coord h b).
Definition one_each (h : bool) (l : list shape) : dict := map (fun s => (coord h s, [s])) l.
Lemma keys_one h l : keys (one_each h l) = map (coord h) l.
Proof. unfold keys, one_each. rewrite map_map. reflexivity. Qed.
Lemma group_apart_gen h c : 0 <= c -> forall l l0, pairwise (far h c) (l0 ++ l) ->
  fold_left (put_stroke h c) l (one_each h l0) = one_each h (l0 ++ l).
Proof.
  intros Hc. induction l as [|s l IH]; intros l0 P; [rewrite app_nil_r; reflexivity|]. cbn [fold_left].
  assert (E : put_stroke h c (one_each h l0) s = one_each h (l0 ++ [s])).
  { assert (F : forall x, In x l0 -> c < Qabs (coord h s - coord h x)).
    { intros x Hx. clear IH. induction l0 as [|y t IH]; [destruct Hx|]. cbn [app] in P. inversion P as [|? ? P1 P2]; subst.
      destruct Hx as [<-|Hx]; [|apply IH; assumption]. rewrite Qabs_Qminus. apply P1. apply in_or_app. right. left. reflexivity. }
    unfold put_stroke. change (round1 (s_at h s)) with (coord h s).
    assert (N : near_key c (coord h s) (one_each h l0) = None).
    { clear IH P. induction l0 as [|y t IH]; [reflexivity|]. cbn [one_each map near_key]. destruct (qlt_spec c (qabs (coord h s - coord h y))) as [L|L].
      - apply IH. intros x Hx. apply F. right. exact Hx.
      - exfalso. apply L. rewrite qabs_Qabs'. apply F. left. reflexivity. }
    rewrite N. unfold one_each at 2. rewrite map_app. cbn [map]. apply dset_new. intros k Hk. unfold keys in Hk. rewrite map_map in Hk. cbn [fst] in Hk. apply in_map_iff in Hk.
    destruct Hk as (x & <- & Hx). intros E. specialize (F x Hx). assert (Z : coord h s - coord h x == 0) by lra. rewrite Z in F. change (Qabs 0) with 0 in F. lra. }
  rewrite E. rewrite IH; rewrite <- app_assoc; [reflexivity|exact P].
Qed.
Lemma group_apart h c l : 0 <= c -> pairwise (far h c) l -> group_dir h c l = one_each h l.
Proof. intros Hc P. exact (group_apart_gen h c Hc l [] P). Qed.

(** Shapes that run backwards. *)
Definition backwards (h : bool) (d : shape) : Prop := s_to h d <= s_from h d.
Lemma dummy_ends h a f t : s_from h (dummy h a f t) = f /\ s_to h (dummy h a f t) = t.
Proof.
  unfold dummy, stroke_update_bbox.
  assert (Z : qeq (area (mk_side h a f t)) 0 = true).
  { apply qeq_iff. unfold area, mk_side, rwidth, rheight. destruct h; cbn [rx0 ry0 rx1 ry1]; [setoid_replace (a - a) with 0 by ring; ring|setoid_replace (a - a) with 0 by ring; ring]. }
  rewrite Z. unfold mk_side. destruct h; split; reflexivity.
Qed.
Lemma lex_first a l b m : a < b -> lex_le (a :: l) (b :: m) = true.
Proof. intros H. cbn [lex_le]. rewrite qeq_neq by lra. apply qlt_iff. exact H. Qed.
Lemma side_key_first h s t : b_from h (sh_bbox s) < b_from h (sh_bbox t) -> lex_le (side_key h s) (side_key h t) = true.
Proof. intros H. unfold side_key, b_from in *. destruct h; apply lex_first; exact H. Qed.
Lemma check_outer_line r w h first d s : dget (side_current first d) d = Some [s] -> Qabs (b_at h first r - side_current first d) <= w ->
  rect_decimal r -> rect_decimal (sh_bbox s) -> b_from h (sh_bbox s) <= b_from h r -> b_to h r <= b_to h (sh_bbox s) -> b_from h (sh_bbox s) < b_to h (sh_bbox s) ->
  exists dums, check_outer r w h first d = dset (side_current first d) (s :: dums) d /\ forall x, In x dums -> backwards h x.
Proof.
  intros E W Dr Ds F T FT. unfold check_outer. fold (side_current first d). rewrite E. cbv zeta. rewrite sort_side_one.
  destruct (qlt_spec w (qabs (b_at h first r - side_current first d))) as [L|_]; [exfalso; rewrite qabs_Qabs' in L; lra|].
  rewrite (dset_same _ _ _ E). cbn [missing app]. set (at_ := b_at h first r).
  set (g1 := if qlt 1 (qabs (b_from h r - b_from h (sh_bbox s))) then [dummy h at_ (b_from h r) (b_from h (sh_bbox s))] else []).
  set (g2 := if qlt 1 (qabs (b_to h (sh_bbox s) - b_to h r)) then [dummy h at_ (b_to h (sh_bbox s)) (b_to h r)] else []).
  assert (Da : decimal 10 at_) by (apply b_at_decimal; exact Dr).
  destruct (b_decimal h r Dr) as (D1 & D2). destruct (b_decimal h _ Ds) as (D3 & D4).
  assert (B : forall x, In x (g1 ++ g2) -> backwards h x /\ b_from h (sh_bbox s) < b_from h (sh_bbox x)).
  { intros x Hx. apply in_app_or in Hx. destruct Hx as [Hx|Hx]; unfold g1, g2 in Hx.
    - destruct (qlt_spec 1 (qabs (b_from h r - b_from h (sh_bbox s)))) as [L|L]; [|destruct Hx]. destruct Hx as [<-|[]].
      rewrite qabs_Qabs', Qabs_pos in L by lra. unfold backwards. destruct (dummy_ends h at_ (b_from h r) (b_from h (sh_bbox s))) as (-> & ->).
      destruct (dummy_bbox h at_ (b_from h r) (b_from h (sh_bbox s)) Da D1 D3) as (-> & _). split; lra.
    - destruct (qlt_spec 1 (qabs (b_to h (sh_bbox s) - b_to h r))) as [L|L]; [|destruct Hx]. destruct Hx as [<-|[]].
      unfold backwards. destruct (dummy_ends h at_ (b_to h (sh_bbox s)) (b_to h r)) as (-> & ->).
      destruct (dummy_bbox h at_ (b_to h (sh_bbox s)) (b_to h r) Da D4 D2) as (-> & _). split; lra. }
  exists (sort_side h (filter shape_bool (g1 ++ g2))). split.
  - f_equal. unfold sort_side, sort_key. cbn [py_sort fold_right]. apply insert_sorted_head. intros y Hy.
    apply side_key_first. apply B. apply (proj1 (py_sort_In _ _ _)) in Hy. apply filter_In in Hy. apply Hy.
  - intros x Hx. apply sort_side_In, filter_In in Hx. apply B, Hx.
Qed.

Section Direction.
Variables (h : bool) (c w : Q) (r : rect) (l : list shape) (s0 s1 : shape).
Hypothesis Hc : 0 <= c.
Hypothesis Far : pairwise (far h c) l.
Hypothesis I0 : In s0 l.
Hypothesis I1 : In s1 l.
Hypothesis Lo : forall s, In s l -> coord h s0 <= coord h s.
Hypothesis Hi : forall s, In s l -> coord h s <= coord h s1.
Hypothesis Ne : coord h s0 < coord h s1.
Hypothesis W0 : Qabs (b_at h true r - coord h s0) <= w.
Hypothesis W1 : Qabs (b_at h false r - coord h s1) <= w.
Hypothesis Dr : rect_decimal r.
Hypothesis End : forall s, s = s0 \/ s = s1 -> rect_decimal (sh_bbox s) /\ b_from h (sh_bbox s) <= b_from h r /\ b_to h r <= b_to h (sh_bbox s) /\ b_from h (sh_bbox s) < b_to h (sh_bbox s).
Definition finished : dict := check_outer r w h false (check_outer r w h true (group_dir h c l)).
Lemma one_distinct : keys_distinct (one_each h l).
Proof.
  unfold keys_distinct. rewrite keys_one. apply pairwise_map. eapply pairwise_impl; [|exact Far]. intros a b _ _ F E. unfold far in F.
  assert (Z : coord h a - coord h b == 0) by lra. rewrite Z in F. change (Qabs 0) with 0 in F. lra.
Qed.
Lemma one_get s : In s l -> dget (coord h s) (one_each h l) = Some [s].
Proof. intros H. apply dget_distinct; [apply one_distinct|]. unfold one_each. apply in_map_iff. exists s. auto. Qed.
Lemma finished_spec : keys finished = map (coord h) l /\ keys_distinct finished /\
  forall s, In s l -> exists dums, dget (coord h s) finished = Some (s :: dums) /\ forall x, In x dums -> backwards h x.
Proof.
  unfold finished. rewrite (group_apart h c l Hc Far). set (d := one_each h l).
  assert (Kd : keys d = map (coord h) l) by apply keys_one.
  assert (Nd : keys d <> []) by (rewrite Kd; intros Z; apply map_eq_nil in Z; rewrite Z in I0; destruct I0).
  assert (C0 : side_current true d == coord h s0).
  { unfold side_current. destruct (list_min_spec (keys d) Nd) as (A & B). apply Qle_antisym.
    - apply B. rewrite Kd. apply in_map. exact I0.
    - rewrite Kd in A at 2. apply in_map_iff in A. destruct A as (x & <- & Hx). apply Lo, Hx. }
  assert (G0 : dget (side_current true d) d = Some [s0]) by (rewrite (dget_comp _ _ _ C0); apply one_get, I0).
  destruct (End s0 (or_introl eq_refl)) as (E1 & E2 & E3 & E4).
  destruct (check_outer_line r w h true d s0 G0) as (d0 & -> & B0); try assumption.
  { assert (Z : b_at h true r - side_current true d == b_at h true r - coord h s0) by lra. rewrite Z. exact W0. }
  set (d' := dset (side_current true d) (s0 :: d0) d).
  assert (Kd' : keys d' = map (coord h) l).
  { unfold d'. rewrite keys_dset. assert (X : existsb (fun k' => qeq k' (side_current true d)) (keys d) = true); [|rewrite X; exact Kd].
    apply existsb_exists. exists (coord h s0). split; [rewrite Kd; apply in_map, I0|apply qeq_iff; lra]. }
  assert (Nd' : keys d' <> []) by (rewrite Kd', <- Kd; exact Nd).
  assert (C1 : side_current false d' == coord h s1).
  { unfold side_current. destruct (list_max_spec (keys d') Nd') as (A & B). apply Qle_antisym.
    - rewrite Kd' in A at 2. apply in_map_iff in A. destruct A as (x & <- & Hx). apply Hi, Hx.
    - apply B. rewrite Kd'. apply in_map. exact I1. }
  assert (G1 : dget (side_current false d') d' = Some [s1]).
  { rewrite (dget_comp _ _ _ C1). unfold d'. rewrite dget_dset. rewrite qeq_neq by lra. apply one_get, I1. }
  destruct (End s1 (or_intror eq_refl)) as (F1 & F2 & F3 & F4).
  destruct (check_outer_line r w h false d' s1 G1) as (d1 & -> & B1); try assumption.
  { assert (Z : b_at h false r - side_current false d' == b_at h false r - coord h s1) by lra. rewrite Z. exact W1. }
  split; [|split].
  - rewrite keys_dset. assert (X : existsb (fun k' => qeq k' (side_current false d')) (keys d') = true); [|rewrite X; exact Kd'].
    apply existsb_exists. exists (coord h s1). split; [rewrite Kd'; apply in_map, I1|apply qeq_iff; lra].
  - apply dset_distinct, dset_distinct, one_distinct.
  - intros s Hs. rewrite dget_dset. destruct (qeq_spec (side_current false d') (coord h s)) as [Q1|Q1].
    + assert (s = s1).
      { assert (X : dget (coord h s) d = Some [s]) by (apply one_get, Hs). assert (Y : dget (coord h s1) d = Some [s1]) by (apply one_get, I1).
        rewrite (dget_comp (coord h s) (coord h s1)) in X by lra. congruence. }
      subst s. exists d1. auto.
    + unfold d'. rewrite dget_dset. destruct (qeq_spec (side_current true d) (coord h s)) as [Q2|Q2].
      * assert (s = s0).
        { assert (X : dget (coord h s) d = Some [s]) by (apply one_get, Hs). assert (Y : dget (coord h s0) d = Some [s0]) by (apply one_get, I0).
          rewrite (dget_comp (coord h s) (coord h s0)) in X by lra. congruence. }
        subst s. exists d0. auto.
      * exists []. split; [apply one_get, Hs|intros x []].
Qed.
End Direction.
Lemma crossed_line h ref s dums : (forall x, In x dums -> backwards h x) -> crossed h ref (s :: dums) = true <-> s_from h s < ref < s_to h s.
Proof.
  intros B. assert (N : crossed h ref dums = false).
  { destruct (crossed h ref dums) eqn:E; [|reflexivity]. exfalso. apply crossed_sound in E. destruct E as (x & Hx & A1 & A2). specialize (B x Hx). unfold backwards in B. lra. }
  cbn [crossed]. rewrite N. destruct (qlt_spec (s_from h s) ref) as [A1|A1]; destruct (qlt_spec ref (s_to h s)) as [A2|A2]; cbn [andb].
  - split; auto.
  - destruct (qlt _ _); [split; [discriminate|tauto]|]. destruct (qlt _ _); split; try discriminate; tauto.
  - destruct (qlt _ _); [split; [discriminate|tauto]|]. destruct (qlt _ _); split; try discriminate; tauto.
  - destruct (qlt _ _); [split; [discriminate|tauto]|]. destruct (qlt _ _); split; try discriminate; tauto.
Qed.
