From Verif Require Import AssignSpec GeomSpec GeomProof TextProof.
From Coq Require Import Permutation.
Open Scope Q_scope.

(* ------------------------------------------------------------------ *)
(** * Areas *)
Lemma shared_area a b : proper a -> proper b -> area (rinter a b) == shared a b.
Proof.
  intros Pa Pb. rewrite (rinter_proper a b Pa Pb). unfold shared.
  set (x1 := qmin (rx1 a) (rx1 b)). set (x0 := qmax (rx0 a) (rx0 b)). set (y1 := qmin (ry1 a) (ry1 b)). set (y0 := qmax (ry0 a) (ry0 b)).
  unfold area, rwidth, rheight.
  clearbody x1 x0 y1 y0. unfold qmax.
  destruct (qlt_spec x1 x0), (qlt_spec y1 y0); cbn [orb rx0 rx1 ry0 ry1 rect0];
  destruct (qlt_spec 0 (x1 - x0)), (qlt_spec 0 (y1 - y0)); try lra;
  first [assert (E : x1 - x0 == 0) by lra; rewrite E; lra | assert (E : y1 - y0 == 0) by lra; rewrite E; lra].
Qed.
Lemma shared_sym a b : shared a b == shared b a.
Proof.
  unfold shared. rewrite (qmax_comp 0 (qmin (rx1 a) (rx1 b) - qmax (rx0 a) (rx0 b)) 0 (qmin (rx1 b) (rx1 a) - qmax (rx0 b) (rx0 a))),
    (qmax_comp 0 (qmin (ry1 a) (ry1 b) - qmax (ry0 a) (ry0 b)) 0 (qmin (ry1 b) (ry1 a) - qmax (ry0 b) (ry0 a))); try reflexivity.
  - pose proof (qmin_sym (ry1 a) (ry1 b)). pose proof (qmax_sym (ry0 a) (ry0 b)). lra.
  - pose proof (qmin_sym (rx1 a) (rx1 b)). pose proof (qmax_sym (rx0 a) (rx0 b)). lra.
Qed.
Lemma shared_nonneg a b : 0 <= shared a b.
Proof. unfold shared. apply Qmult_le_0_compat; apply qmax_l. Qed.
Lemma shared_le a b : proper a -> proper b -> shared a b <= area a /\ shared a b <= area b.
Proof. intros Pa Pb. pose proof (area_inter_le a b Pa Pb) as H. rewrite (shared_area a b Pa Pb) in H. tauto. Qed.
Lemma shared_apart a b : apart a b -> shared a b == 0.
Proof.
  intros H. unfold shared. destruct (qmin_cases (rx1 a) (rx1 b)) as [(E1 & L1)|(E1 & L1)], (qmax_cases (rx0 a) (rx0 b)) as [(E2 & L2)|(E2 & L2)],
    (qmin_cases (ry1 a) (ry1 b)) as [(E3 & L3)|(E3 & L3)], (qmax_cases (ry0 a) (ry0 b)) as [(E4 & L4)|(E4 & L4)];
  set (dx := qmin (rx1 a) (rx1 b) - qmax (rx0 a) (rx0 b)); set (dy := qmin (ry1 a) (ry1 b) - qmax (ry0 a) (ry0 b));
  (assert (D : dx <= 0 \/ dy <= 0 \/ (apart a b -> False)) by (unfold dx, dy, apart in *; destruct H as [H|[H|[H|H]]]; (left; lra) || (right; left; lra)));
  (destruct D as [D|[D|D]]; [assert (E : qmax 0 dx == 0) by (unfold qmax; destruct (qlt_spec 0 dx); lra); rewrite E; lra
                           |assert (E : qmax 0 dy == 0) by (unfold qmax; destruct (qlt_spec 0 dy); lra); rewrite E; lra
                           |exfalso; apply D; exact H]).
Qed.
Lemma apart_shared a b : proper a -> proper b -> shared a b == 0 -> apart a b.
Proof.
  intros [A1 A2] [B1 B2] H. unfold shared in H.
  destruct (Qlt_le_dec (rx0 b) (rx1 a)); [|left; assumption]. destruct (Qlt_le_dec (rx0 a) (rx1 b)); [|right; left; assumption].
  destruct (Qlt_le_dec (ry0 b) (ry1 a)); [|right; right; left; assumption]. destruct (Qlt_le_dec (ry0 a) (ry1 b)); [|right; right; right; assumption].
  exfalso. assert (0 < qmin (rx1 a) (rx1 b) - qmax (rx0 a) (rx0 b)).
  { destruct (qmin_cases (rx1 a) (rx1 b)) as [(E1 & _)|(E1 & _)], (qmax_cases (rx0 a) (rx0 b)) as [(E2 & _)|(E2 & _)]; lra. }
  assert (0 < qmin (ry1 a) (ry1 b) - qmax (ry0 a) (ry0 b)).
  { destruct (qmin_cases (ry1 a) (ry1 b)) as [(E1 & _)|(E1 & _)], (qmax_cases (ry0 a) (ry0 b)) as [(E2 & _)|(E2 & _)]; lra. }
  set (dx := qmin (rx1 a) (rx1 b) - qmax (rx0 a) (rx0 b)) in *. set (dy := qmin (ry1 a) (ry1 b) - qmax (ry0 a) (ry0 b)) in *.
  unfold qmax in H. destruct (qlt_spec 0 dx), (qlt_spec 0 dy); try lra. nra.
Qed.
Lemma shared_covers a b : covers a b -> proper b -> shared a b == area b.
Proof.
  intros (C1 & C2 & C3 & C4) (P1 & P2). unfold shared, area, rwidth, rheight.
  assert (E1 : qmin (rx1 a) (rx1 b) == rx1 b) by (destruct (qmin_cases (rx1 a) (rx1 b)); lra).
  assert (E2 : qmin (ry1 a) (ry1 b) == ry1 b) by (destruct (qmin_cases (ry1 a) (ry1 b)); lra).
  assert (E3 : qmax (rx0 a) (rx0 b) == rx0 b) by (destruct (qmax_cases (rx0 a) (rx0 b)); lra).
  assert (E4 : qmax (ry0 a) (ry0 b) == ry0 b) by (destruct (qmax_cases (ry0 a) (ry0 b)); lra).
  assert (F1 : qmax 0 (qmin (rx1 a) (rx1 b) - qmax (rx0 a) (rx0 b)) == rx1 b - rx0 b) by (destruct (qmax_cases 0 (qmin (rx1 a) (rx1 b) - qmax (rx0 a) (rx0 b))); lra).
  assert (F2 : qmax 0 (qmin (ry1 a) (ry1 b) - qmax (ry0 a) (ry0 b)) == ry1 b - ry0 b) by (destruct (qmax_cases 0 (qmin (ry1 a) (ry1 b) - qmax (ry0 a) (ry0 b))); lra).
  rewrite F1, F2. reflexivity.
Qed.
Lemma apart_sub a b c : apart a b -> covers b c -> apart a c.
Proof. unfold apart, covers. intros [H|[H|[H|H]]] (C1 & C2 & C3 & C4); [left|right;left|right;right;left|right;right;right]; lra. Qed.
Lemma apart_sym a b : apart a b -> apart b a. Proof. unfold apart. tauto. Qed.
Lemma coversb_iff a b : coversb a b = true <-> covers a b.
Proof. unfold coversb, covers. rewrite !andb_true_iff, !qle_iff. tauto. Qed.
Lemma rcontains_coversb a b : proper a -> proper b -> rcontains a b = coversb a b.
Proof. intros Pa Pb. unfold rcontains. rewrite !proper_nonempty by assumption. reflexivity. Qed.
Lemma rintersects_shared a b : proper a -> proper b -> rintersects a b = qlt 0 (shared a b).
Proof. intros Pa Pb. unfold rintersects. rewrite !proper_nonempty by assumption. cbn [negb andb]. apply qlt_comp; [reflexivity|apply shared_area; assumption]. Qed.
Lemma apart_covers t t' b : proper b -> apart t t' -> covers t' b -> shared t b == 0.
Proof. intros Pb H C. apply shared_apart. exact (apart_sub _ _ _ H C). Qed.

(** Rounded thresholds. *)
Lemma round2_90 x : 9 # 10 <= round2 x <-> 895 # 1000 <= x.
Proof.
  split; intros H.
  - destruct (Qlt_le_dec x (895 # 1000)); [exfalso|assumption]. pose proof (round2_bound x). lra.
  - pose proof (round_p_mono 100 _ _ H) as M. change (round_p 100 (895 # 1000)) with (90 # 100) in M. unfold round2. lra.
Qed.
Lemma round2_95 x : 95 # 100 <= round2 x <-> 945 # 1000 < x.
Proof.
  split; intros H.
  - destruct (Qlt_le_dec (945 # 1000) x) as [|L]; [assumption|exfalso]. pose proof (round_p_mono 100 _ _ L) as M.
    change (round_p 100 (945 # 1000)) with (94 # 100) in M. unfold round2 in H. lra.
  - pose proof (round2_bound x) as B. destruct (round_p_decimal 100 x) as (z & E). fold (round2 x) in E.
    assert (G : 94 # 100 < round2 x) by lra. rewrite E in G |- *. unfold Qdiv in *. change (/ inject_Z 100) with (1 # 100) in *.
    assert (G1 : inject_Z 94 < inject_Z z) by (change (inject_Z 94) with 94; lra). rewrite inject_Z_lt in G1.
    assert (G2 : (95 <= z)%Z) by lia. apply inject_Z_le in G2. change (inject_Z 95) with 95 in G2. lra.
Qed.
Lemma ratio_90 a s : 0 < a -> qle FACTOR_MOST (round2 (s / a)) = qle ((895 # 1000) * a) s.
Proof.
  intros P. assert (H : 895 # 1000 <= s / a <-> (895 # 1000) * a <= s).
  { split; intros H.
    - apply (Qmult_le_r _ _ a P) in H. eapply Qle_trans; [exact H|]. unfold Qdiv. rewrite <- Qmult_assoc, (Qmult_comm (/ _)), Qmult_inv_r by lra. lra.
    - apply Qle_shift_div_l; assumption. }
  rewrite <- round2_90 in H. unfold FACTOR_MOST. destruct (qle_spec (9 # 10) (round2 (s / a))), (qle_spec ((895 # 1000) * a) s); try reflexivity; exfalso; tauto.
Qed.
Lemma ratio_95 a s : 0 < a -> qlt (round2 (s / a)) FACTOR_ALMOST = negb (qlt ((945 # 1000) * a) s).
Proof.
  intros P. assert (H : 945 # 1000 < s / a <-> (945 # 1000) * a < s).
  { split; intros H.
    - apply (Qmult_lt_r _ _ a P) in H. eapply Qlt_le_trans; [exact H|]. unfold Qdiv. rewrite <- Qmult_assoc, (Qmult_comm (/ _)), Qmult_inv_r by lra. lra.
    - apply Qlt_shift_div_l; assumption. }
  rewrite <- round2_95 in H. unfold FACTOR_ALMOST. destruct (qlt_spec (round2 (s / a)) (95 # 100)), (qlt_spec ((945 # 1000) * a) s); try reflexivity; exfalso.
  - apply H in q0. lra.
  - apply n0, H. lra.
Qed.
Lemma contains_almost c b : proper c -> proper b -> contains c b FACTOR_ALMOST = almost_inside c b.
Proof.
  intros Pc Pb. unfold contains, almost_inside. cbv zeta. pose proof (area_pos b Pb) as Ha.
  destruct (qeq_spec (area b) 0) as [E|_]; [lra|].
  rewrite (ratio_95 _ _ Ha), (qlt_comp _ (area (rinter c b)) ((945 # 1000) * area b) (shared c b)) by (reflexivity || apply shared_area; assumption).
  destruct (qlt ((945 # 1000) * area b) (shared c b)); reflexivity.
Qed.

(* ------------------------------------------------------------------ *)
(** * Tables *)
Lemma text_block_app ls : forall r k, exists r', fold_left (fun b l => match b with
                        | BText r k => if ln_bool l then BText (union_bbox r (ln_bbox l)) (k ++ [l]) else b
                        | BTable _ _ => b
                        end) ls (BText r k) = BText r' (k ++ filter ln_bool ls).
Proof.
  induction ls as [|l t IH]; intros r k; cbn [fold_left filter]; [exists r; rewrite app_nil_r; reflexivity|].
  destruct (ln_bool l); [|apply IH]. destruct (IH (union_bbox r (ln_bbox l)) (k ++ [l])) as (r' & E). exists r'. rewrite E, <- app_assoc. reflexivity.
Qed.
Lemma text_block_lines ls : exists r, text_block ls = BText r (filter ln_bool ls).
Proof. unfold text_block. destruct (text_block_app ls rect0 []) as (r & E). exists r. exact E. Qed.
Lemma text_block_items ls : (forall l, In l ls -> ln_bool l = true) -> items (text_block ls) = map ILine ls.
Proof. intros H. destruct (text_block_lines ls) as (r & ->). cbn [items]. rewrite filter_all by exact H. reflexivity. Qed.

Definition in_table (t : rect) (l : line) : bool := qle ((895 # 1000) * area (ln_bbox l)) (shared (ln_bbox l) t).
Lemma split_lines_spec t ls : proper t -> (forall l, In l ls -> proper (ln_bbox l)) ->
  split_lines t ls = Some (filter (in_table t) ls, filter (fun l => negb (in_table t l)) ls).
Proof.
  intros Pt. induction ls as [|l r IH]; intros H; cbn [split_lines filter]; [reflexivity|].
  pose proof (H l (or_introl eq_refl)) as Pl. pose proof (area_pos _ Pl) as Ha.
  destruct (qeq_spec (area (ln_bbox l)) 0) as [E|_]; [lra|]. rewrite IH by (intros x Hx; apply H; right; exact Hx).
  rewrite (ratio_90 _ _ Ha), (qle_comp _ (area (rinter (ln_bbox l) t)) ((895 # 1000) * area (ln_bbox l)) (shared (ln_bbox l) t)) by (reflexivity || apply shared_area; assumption).
  fold (in_table t l). destruct (in_table t l); reflexivity.
Qed.

Definition content (r : list (list block)) (k : list block) (d : option nat) : list item :=
  match d with Some i => all_items (nth i r []) | None => all_items k end.
Lemma nth_none_of {A B} (ts : list A) i : nth i (none_of ts : list (list B)) [] = [].
Proof. unfold none_of. revert i. induction ts; destruct i; cbn; auto. Qed.
Lemma goes_cons t ts d p : goes (t :: ts) d p =
  if takes t p then match d with Some O => true | _ => false end else match d with Some (S i) => goes ts (Some i) p | Some O => false | None => goes ts None p end.
Proof.
  unfold goes. cbn [home]. destruct (takes t p); [destruct d as [[|i]|]; reflexivity|].
  destruct (home ts p) as [j|]; cbn [option_map]; destruct d as [[|i]|]; reflexivity.
Qed.
Lemma goes_nil d p : goes [] d p = match d with None => true | Some _ => false end.
Proof. unfold goes. cbn. destruct d; reflexivity. Qed.
Definition line_item (bb : rect) (l : line) : rect * item := (bb, ILine l).
Lemma filter_map {A B} (f : A -> B) p l : filter p (map f l) = map f (filter (fun x => p (f x)) l).
Proof. induction l as [|x t IH]; cbn; [reflexivity|]. destruct (p (f x)); cbn; rewrite IH; reflexivity. Qed.
Lemma filter_filter {A} (p q : A -> bool) l : filter p (filter q l) = filter (fun x => q x && p x) l.
Proof. induction l as [|x t IH]; cbn; [reflexivity|]. destruct (q x); cbn; [destruct (p x); rewrite IH; reflexivity|exact IH]. Qed.
Lemma filter_false {A} (l : list A) : filter (fun _ => false) l = [].
Proof. induction l; cbn; auto. Qed.
Lemma filter_true {A} (l : list A) : filter (fun _ => true) l = l.
Proof. induction l; cbn; congruence. Qed.

Lemma assign_text_spec bb ls0 : proper bb -> forall tables ls, Forall proper tables -> ForallOrdPairs apart tables ->
  (forall l, In l ls -> proper (ln_bbox l)) ->
  ((exists t, In t tables /\ covers t bb) -> ls = ls0) ->
  exists r k, assign_block (BText bb ls0) ls tables = Some (r, k) /\ length r = length tables /\
    forall d, content r k d = map ILine (filter (fun l => goes tables d (bb, ILine l)) ls).
Proof.
  intros Pb. induction tables as [|t ts IH]; intros ls Pt Ap Pl Ho.
  - cbn [assign_block]. do 2 eexists. split; [reflexivity|]. split; [reflexivity|]. intros d.
    rewrite (filter_ext _ (fun _ => match d with None => true | Some _ => false end)) by (intros l; apply goes_nil).
    destruct d as [i|]; cbn [content].
    + rewrite filter_false. destruct i; reflexivity.
    + rewrite filter_true. unfold all_items. cbn [flat_map]. rewrite app_nil_r. apply text_block_items. intros l Hl. apply proper_truthy, Pl, Hl.
  - inversion Pt as [|? ? Pt1 Pt2]; subst. inversion Ap as [|? ? Ap1 Ap2]; subst. cbn [assign_block blk_bbox].
    rewrite (rcontains_coversb t bb Pt1 Pb). destruct (coversb t bb) eqn:C.
    + do 2 eexists. split; [reflexivity|]. split; [cbn [length]; unfold none_of; rewrite map_length; reflexivity|].
      assert (E : ls = ls0) by (apply Ho; exists t; split; [left; reflexivity|apply coversb_iff; exact C]). subst ls0.
      intros d. rewrite (filter_ext _ (fun _ => match d with Some O => true | _ => false end)).
      2:{ intros l. rewrite goes_cons. unfold takes. cbn [fst]. rewrite C. reflexivity. }
      destruct d as [[|i]|]; cbn [content nth].
      * rewrite filter_true. unfold all_items. cbn. rewrite app_nil_r. reflexivity.
      * rewrite filter_false, nth_none_of. reflexivity.
      * rewrite filter_false. reflexivity.
    + rewrite (rintersects_shared t bb Pt1 Pb). destruct (qlt_spec 0 (shared t bb)) as [I|I]; cbn [negb].
      2:{ destruct (IH ls Pt2 Ap2 Pl) as (r & k & E & L & S).
          { intros (u & Hu & Cu). apply Ho. exists u. split; [right; exact Hu|exact Cu]. }
          rewrite E. do 2 eexists. split; [reflexivity|]. split; [cbn [length]; congruence|]. intros d.
          assert (G : forall l, goes (t :: ts) d (bb, ILine l) = match d with Some (S i) => goes ts (Some i) (bb, ILine l) | Some O => false | None => goes ts None (bb, ILine l) end).
          { intros l. rewrite goes_cons. unfold takes. cbn [fst snd]. rewrite C. destruct (qlt_spec 0 (shared t bb)); [contradiction|]. reflexivity. }
          rewrite (filter_ext _ _ G). destruct d as [[|i]|]; cbn [content nth].
          - rewrite filter_false. reflexivity.
          - apply (S (Some i)).
          - apply (S None). }
      rewrite (split_lines_spec t ls Pt1 Pl).
      assert (G : forall d l, goes (t :: ts) d (bb, ILine l) = if in_table t l then match d with Some O => true | _ => false end else match d with Some (S i) => goes ts (Some i) (bb, ILine l) | Some O => false | None => goes ts None (bb, ILine l) end).
      { intros d l. rewrite goes_cons. unfold takes. cbn [fst snd]. rewrite C. destruct (qlt_spec 0 (shared t bb)); [|contradiction]. reflexivity. }
      assert (NC : ~ exists u, In u ts /\ covers u bb).
      { intros (u & Hu & Cu). rewrite Forall_forall in Ap1. pose proof (apart_covers t u bb Pb (Ap1 u Hu) Cu). lra. }
      set (ins := filter (in_table t) ls). set (outs := filter (fun l => negb (in_table t l)) ls).
      assert (Ti : items (text_block ins) = map ILine ins) by (apply text_block_items; intros l Hl; apply proper_truthy, Pl; apply filter_In in Hl; tauto).
      assert (F0 : filter (fun l => goes (t :: ts) (Some 0%nat) (bb, ILine l)) ls = ins).
      { unfold ins. apply filter_ext. intros l. rewrite G. destruct (in_table t l); reflexivity. }
      assert (F1 : forall d, filter (fun l => goes (t :: ts) (match d with Some i => Some (S i) | None => None end) (bb, ILine l)) ls = filter (fun l => goes ts d (bb, ILine l)) outs).
      { intros d. unfold outs. rewrite filter_filter. apply filter_ext. intros l. rewrite G. destruct (in_table t l); destruct d; reflexivity. }
      destruct outs as [|o os] eqn:Eo.
      * do 2 eexists. split; [reflexivity|]. split; [cbn [length]; unfold none_of; rewrite map_length; reflexivity|]. intros [[|i]|]; cbn [content nth].
        -- rewrite F0. unfold all_items. cbn [flat_map]. rewrite app_nil_r. exact Ti.
        -- rewrite nth_none_of, (F1 (Some i)). reflexivity.
        -- rewrite (F1 None). reflexivity.
      * rewrite <- Eo in *. destruct (IH outs Pt2 Ap2) as (r & k & E & L & S).
        { intros l Hl. apply Pl. unfold outs in Hl. apply filter_In in Hl. tauto. }
        { intros X. contradiction. }
        rewrite E. do 2 eexists. split; [reflexivity|]. split; [cbn [length]; congruence|]. intros [[|i]|]; cbn [content nth].
        -- rewrite F0. unfold all_items. cbn [flat_map]. rewrite app_nil_r. exact Ti.
        -- rewrite (F1 (Some i)). apply (S (Some i)).
        -- rewrite (F1 None). apply (S None).
Qed.
Lemma assign_table_spec k0 bb : proper bb -> forall tables, Forall proper tables ->
  exists r k, assign_block (BTable k0 bb) [] tables = Some (r, k) /\ length r = length tables /\
    forall d, content r k d = filter (fun it => goes tables d (bb, it)) [ITable k0 bb].
Proof.
  intros Pb. induction tables as [|t ts IH]; intros Pt.
  - cbn [assign_block]. do 2 eexists. split; [reflexivity|]. split; [reflexivity|]. intros d. cbn [filter]. rewrite goes_nil. destruct d as [[|i]|]; reflexivity.
  - inversion Pt as [|? ? Pt1 Pt2]; subst. cbn [assign_block blk_bbox].
    rewrite (rcontains_coversb t bb Pt1 Pb). destruct (coversb t bb) eqn:C.
    + do 2 eexists. split; [reflexivity|]. split; [cbn [length]; unfold none_of; rewrite map_length; reflexivity|]. intros d. cbn [filter]. rewrite goes_cons. unfold takes. cbn [fst snd]. rewrite C.
      cbn [orb]. destruct d as [[|i]|]; cbn [content nth]; [reflexivity|rewrite nth_none_of; reflexivity|reflexivity].
    + destruct (IH Pt2) as (r & k & E & L & S). rewrite E.
      assert (G : forall d, filter (fun it => goes (t :: ts) d (bb, it)) [ITable k0 bb] = match d with Some (S i) => filter (fun it => goes ts (Some i) (bb, it)) [ITable k0 bb] | Some O => [] | None => filter (fun it => goes ts None (bb, it)) [ITable k0 bb] end).
      { intros d. cbn [filter]. rewrite goes_cons. unfold takes. cbn [fst snd]. rewrite C. cbn [orb]. destruct d as [[|i]|]; reflexivity. }
      exists ([] :: r), k. split; [destruct (negb (rintersects t bb)); reflexivity|]. split; [cbn [length]; congruence|]. intros d. rewrite G. destruct d as [[|i]|]; cbn [content nth].
      * reflexivity.
      * apply (S (Some i)).
      * apply (S None).
Qed.
Definition placeable (b : block) : Prop := proper (blk_bbox b) /\ forall l, In l (blk_lines b) -> proper (ln_bbox l).
Lemma assign_block_spec tables b : Forall proper tables -> ForallOrdPairs apart tables -> placeable b ->
  exists r k, assign_block b (blk_lines b) tables = Some (r, k) /\ length r = length tables /\
    forall d, content r k d = map snd (filter (goes tables d) (placed [b])).
Proof.
  intros Pt Ap (Pb & Pl). destruct b as [bb ls|k0 bb]; cbn [blk_bbox blk_lines] in *.
  - destruct (assign_text_spec bb ls Pb tables ls Pt Ap Pl (fun _ => eq_refl)) as (r & k & E & L & S). exists r, k. split; [exact E|]. split; [exact L|].
    intros d. rewrite S. unfold placed. cbn [flat_map blk_bbox items]. rewrite app_nil_r, map_map, filter_map, map_map. reflexivity.
  - destruct (assign_table_spec k0 bb Pb tables Pt) as (r & k & E & L & S). exists r, k. split; [exact E|]. split; [exact L|].
    intros d. rewrite S. unfold placed. cbn [flat_map blk_bbox items map app filter]. destruct (goes tables d (bb, ITable k0 bb)); reflexivity.
Qed.
Lemma zip_app_nth {A} (a : list (list A)) : forall b i, length a = length b -> nth i (zip_app a b) [] = nth i a [] ++ nth i b [].
Proof. induction a as [|x s IH]; intros [|y t] i H; try discriminate H; destruct i; cbn; try reflexivity. apply IH. cbn in H. congruence. Qed.
Lemma zip_app_length {A} (a : list (list A)) : forall b, length a = length b -> length (zip_app a b) = length a.
Proof. induction a as [|x s IH]; intros [|y t] H; try discriminate H; cbn; [reflexivity|]. f_equal. apply IH. cbn in H. congruence. Qed.
Lemma all_items_app a b : all_items (a ++ b) = all_items a ++ all_items b.
Proof. unfold all_items. apply flat_map_app. Qed.
Lemma assign_all_spec tables bs : Forall proper tables -> ForallOrdPairs apart tables -> Forall placeable bs ->
  exists r k, assign_all bs tables = Some (r, k) /\ length r = length tables /\
    forall d, content r k d = map snd (filter (goes tables d) (placed bs)).
Proof.
  intros Pt Ap. induction bs as [|b t IH]; intros Pb.
  - cbn [assign_all]. do 2 eexists. split; [reflexivity|]. split; [unfold none_of; apply map_length|]. intros [i|]; cbn [content]; [rewrite nth_none_of|]; reflexivity.
  - inversion Pb as [|? ? Pb1 Pb2]; subst. destruct (assign_block_spec tables b Pt Ap Pb1) as (r & k & E & L & S).
    destruct (IH Pb2) as (r' & k' & E' & L' & S'). cbn [assign_all]. rewrite E, E'. do 2 eexists. split; [reflexivity|].
    split; [rewrite zip_app_length; congruence|]. intros d.
    assert (Ep : placed (b :: t) = placed [b] ++ placed t) by (unfold placed; cbn [flat_map]; rewrite app_nil_r; reflexivity).
    rewrite Ep, filter_app, map_app, <- S, <- S'. destruct d as [i|]; cbn [content].
    + rewrite zip_app_nth by congruence. apply all_items_app.
    + apply all_items_app.
Qed.
Lemma home_bound tables p i : home tables p = Some i -> (i < length tables)%nat.
Proof.
  revert i. induction tables as [|t ts IH]; intros i; cbn [home]; [discriminate|]. destruct (takes t p); [intros H; injection H as <-; cbn; lia|].
  destruct (home ts p) as [j|]; cbn; [|discriminate]. intros H. injection H as <-. specialize (IH j eq_refl). lia.
Qed.
(** Every item has exactly one destination. *)
Lemma seq_parts {A} (f : A -> option nat) n (L : list A) : (forall x i, In x L -> f x = Some i -> (i < n)%nat) ->
  Permutation (concat (map (fun i => filter (fun x => match f x with Some j => Nat.eqb j i | None => false end) L) (seq 0 n)) ++ filter (fun x => match f x with None => true | _ => false end) L) L.
Proof.
  intros H. induction L as [|x t IH].
  - cbn. rewrite app_nil_r. clear. induction (seq 0 n); cbn; auto.
  - assert (IH' := IH (fun y i Hy => H y i (or_intror Hy))). clear IH. cbn [filter]. destruct (f x) as [i|] eqn:E.
    + assert (Hi : (i < n)%nat) by (apply (H x i (or_introl eq_refl) E)).
      rewrite <- IH' at 2. rewrite app_comm_cons. apply Permutation_app_tail.
      replace (seq 0 n) with (seq 0 i ++ i :: seq (S i) (n - S i)).
      2:{ replace n with (i + S (n - S i))%nat at 2 by lia. rewrite seq_app. reflexivity. }
      rewrite !map_app, !concat_app. cbn [map concat]. rewrite Nat.eqb_refl.
      assert (Z : forall l, ~ In i l -> map (fun k => if Nat.eqb i k then x :: filter (fun y => match f y with Some j => Nat.eqb j k | None => false end) t else filter (fun y => match f y with Some j => Nat.eqb j k | None => false end) t) l =
                             map (fun k => filter (fun y => match f y with Some j => Nat.eqb j k | None => false end) t) l).
      { intros l Hl. apply map_ext_in. intros k Hk. destruct (Nat.eqb_spec i k) as [->|]; [contradiction|reflexivity]. }
      rewrite !Z by (rewrite in_seq; lia). cbn [app]. apply Permutation_sym, Permutation_middle.
    + rewrite <- Permutation_middle. constructor. exact IH'.
Qed.

(* ------------------------------------------------------------------ *)
(** * Cells *)
Definition thr (g : glyph) : Q := glyph_share g.
Lemma belongs_pos c g : proper c -> proper (glyph_box (fst g)) -> belongs c g = true -> 0 < shared (glyph_box (fst g)) c.
Proof.
  intros Pc Pg. unfold belongs. rewrite qle_iff. intros H. pose proof (area_pos _ Pc). pose proof (area_pos _ Pg).
  assert (0 < qmin (area (glyph_box (fst g))) (area c)) by (destruct (qmin_cases (area (glyph_box (fst g))) (area c)); lra).
  set (m := qmin _ _) in *. clearbody m. assert (0 < glyph_share (fst g)) by (destruct (fst g); cbn; lra).
  pose proof (Qmult_lt_0_compat _ _ H3 H2). lra.
Qed.
Lemma belongs_apart c g : proper c -> proper (glyph_box (fst g)) -> apart c (glyph_box (fst g)) -> belongs c g = false.
Proof.
  intros Pc Pg Ha. destruct (belongs c g) eqn:B; [|reflexivity]. apply (belongs_pos c g Pc Pg) in B.
  rewrite shared_sym, (shared_apart _ _ Ha) in B. lra.
Qed.
Lemma belongs_inside c g : proper c -> proper (glyph_box (fst g)) -> covers c (glyph_box (fst g)) -> belongs c g = true.
Proof.
  intros Pc Pg Hc. unfold belongs. apply qle_iff. rewrite shared_sym, (shared_covers _ _ Hc Pg).
  pose proof (area_pos _ Pg). pose proof (area_pos _ Pc). pose proof (qmin_l (area (glyph_box (fst g))) (area c)).
  assert (0 < qmin (area (glyph_box (fst g))) (area c)) by (destruct (qmin_cases (area (glyph_box (fst g))) (area c)); lra).
  set (m := qmin _ _) in *. clearbody m. destruct (fst g); cbn [glyph_share glyph_box] in *; lra.
Qed.
Lemma main_box_belongs g c : proper c -> proper (glyph_box (fst g)) ->
  match get_main_bbox (glyph_box (fst g)) c (glyph_share (fst g)) with Some m => rect_bool m | None => false end = belongs c g.
Proof.
  intros Pc Pg. assert (T : 1 # 1000000 < glyph_share (fst g)) by (destruct (fst g); cbn; lra).
  pose proof (main_bbox_ratio _ c _ Pg Pc T) as H. rewrite (shared_area _ _ Pg Pc) in H.
  destruct (get_main_bbox (glyph_box (fst g)) c (glyph_share (fst g))) as [m|] eqn:G.
  - assert (E : m = runion (glyph_box (fst g)) c).
    { unfold get_main_bbox in G. cbv zeta in G. destruct (rect_bool _); [|discriminate]. destruct (qle _ _); [|discriminate]. congruence. }
    assert (R : rect_bool m = true) by (subst m; apply proper_truthy, runion_covers; assumption). rewrite R. symmetry.
    unfold belongs. apply qle_iff. apply H. discriminate.
  - destruct (belongs c g) eqn:B; [|reflexivity]. exfalso. assert (X : @None rect <> None); [|congruence].
    apply H. split; [apply (belongs_pos c g Pc Pg B)|]. unfold belongs in B. apply qle_iff in B. exact B.
Qed.
Lemma union_box a b : box a -> box b -> box (union_bbox a b).
Proof. intros (P & D) (P' & D'). destruct (union_proper a b P D (proper_valid _ P') D') as (H1 & H2 & _). split; assumption. Qed.
Lemma union_zero z b : rect_empty z = true -> box b -> box (union_bbox z b).
Proof.
  intros Z (P & D). unfold union_bbox, runion. rewrite (proper_nonempty b P), Z.
  split; [|apply rround_decimal]. apply (proper_req b); [apply req_sym, rround_fixed, D|exact P].
Qed.
Lemma fold_boxes {A} (f : A -> rect) l : forall r, box r -> (forall x, In x l -> box (f x)) -> box (fold_left (fun b x => union_bbox b (f x)) l r).
Proof.
  induction l as [|x t IH]; intros r Hr H; cbn [fold_left]; [exact Hr|]. apply IH; [apply union_box; [exact Hr|apply H; left; reflexivity]|].
  intros y Hy. apply H. right. exact Hy.
Qed.
Lemma fold_boxes0 {A} (f : A -> rect) z x t : rect_empty z = true -> (forall y, In y (x :: t) -> box (f y)) -> box (fold_left (fun b x => union_bbox b (f x)) (x :: t) z).
Proof. intros Z H. cbn [fold_left]. apply fold_boxes; [apply union_zero; [exact Z|apply H; left; reflexivity]|]. intros y Hy. apply H. right. exact Hy. Qed.
Lemma span_box_of s g : nested_span s -> In g (span_glyphs s) -> proper (glyph_box (fst g)) /\ covers (span_bbox s) (glyph_box (fst g)).
Proof.
  intros ((P & D) & H) Hg. destruct s as [t|k b]; cbn [span_glyphs span_bbox] in *.
  - apply in_map_iff in Hg. destruct Hg as (c & <- & Hc). destruct (H c Hc) as ((Pc & _) & Cc). cbn. auto.
  - destruct Hg as [<-|[]]. cbn. split; [exact P|apply covers_refl].
Qed.
(** One span. *)
Lemma span_clip_spec c s : proper c -> nested_span s ->
  span_glyphs (span_clip c s) = filter (belongs c) (span_glyphs s) /\ (box (span_bbox (span_clip c s))) \/
  (span_bool (span_clip c s) = false /\ filter (belongs c) (span_glyphs s) = []).
Proof.
  intros Pc Hn. pose proof (fun g => span_box_of s g Hn) as Hg. destruct Hn as ((P & D) & H). destruct s as [t|k b]; cbn [span_bbox] in *.
  - cbn [span_clip]. unfold tspan_clip. rewrite (rcontains_coversb c _ Pc P). destruct (coversb c (ts_bbox t)) eqn:C.
    + left. split; [|split; assumption]. symmetry. apply filter_all. intros g Hx. destruct (Hg g Hx) as (Pg & Cg).
      apply belongs_inside; [exact Pc|exact Pg|]. apply coversb_iff in C. exact (covers_trans _ _ _ C Cg).
    + rewrite (rintersects_shared c _ Pc P). destruct (qlt_spec 0 (shared c (ts_bbox t))) as [I|I]; cbn [negb].
      * cbv zeta.
        assert (E : map (fun ch => (GChar ch (ts_attrs t), ts_style t)) (filter (char_mostly_in c) (ts_chars t)) = filter (belongs c) (map (fun ch => (GChar ch (ts_attrs t), ts_style t)) (ts_chars t))).
        { rewrite filter_map. f_equal. apply filter_ext_in. intros ch Hch. destruct (H ch Hch) as ((Pch & _) & _).
          rewrite <- (main_box_belongs (GChar ch (ts_attrs t), ts_style t) c Pc Pch). reflexivity. }
        cbn [span_glyphs] in *. rewrite <- E.
        destruct (filter (char_mostly_in c) (ts_chars t)) as [|x cs] eqn:F; [right; split; reflexivity|]. left. split; [reflexivity|].
        apply (fold_boxes0 ch_bbox); [reflexivity|]. intros y Hy. rewrite <- F in Hy. apply filter_In in Hy. apply (H y). tauto.
      * right. split; [reflexivity|]. apply filter_none. intros g Hx. destruct (Hg g Hx) as (Pg & Cg).
        apply belongs_apart; [exact Pc|exact Pg|]. apply (apart_sub _ (ts_bbox t)); [|exact Cg].
        apply apart_shared; [exact Pc|exact P|]. pose proof (shared_nonneg c (ts_bbox t)). lra.
  - cbn [span_clip]. assert (E := main_box_belongs (GImage k b, []) c Pc P). cbn [fst glyph_box glyph_share] in E. change (3 # 4) with (FACTOR_MAJOR) in E.
    cbn [span_glyphs filter]. rewrite <- E. destruct (get_main_bbox b c FACTOR_MAJOR) as [m|].
    + destruct (rect_bool m); [left|right]; split; try reflexivity. split; assumption.
    + right. split; reflexivity.
Qed.
Lemma line_add_all_filter ss : forall l, ln_spans (line_add_all l ss) = ln_spans l ++ filter span_bool ss /\
  ln_bbox (line_add_all l ss) = fold_left (fun b s => union_bbox b (span_bbox s)) (filter span_bool ss) (ln_bbox l).
Proof.
  unfold line_add_all. induction ss as [|x t IH]; intros l; cbn [fold_left filter]; [rewrite app_nil_r; auto|].
  destruct (IH (line_add l x)) as (A & B). rewrite A, B. unfold line_add. destruct (span_bool x); cbn [ln_spans ln_bbox fold_left]; [rewrite <- app_assoc; auto|auto].
Qed.
Lemma clip_spans c ss : proper c -> (forall s, In s ss -> nested_span s) ->
  styled (filter span_bool (map (span_clip c) ss)) = filter (belongs c) (styled ss) /\
  (forall s, In s (filter span_bool (map (span_clip c) ss)) -> box (span_bbox s)).
Proof.
  intros Pc. induction ss as [|s t IH]; intros H; [split; [reflexivity|intros ? []]|].
  destruct (IH (fun x Hx => H x (or_intror Hx))) as (E & B). cbn [map].
  change (styled (s :: t)) with (span_glyphs s ++ styled t). rewrite filter_app.
  destruct (span_clip_spec c s Pc (H s (or_introl eq_refl))) as [(E1 & B1)|(E1 & B1)]; cbn [filter].
  - assert (R : span_bool (span_clip c s) = true) by (apply proper_truthy, B1). rewrite R.
    change (styled (span_clip c s :: filter span_bool (map (span_clip c) t))) with (span_glyphs (span_clip c s) ++ styled (filter span_bool (map (span_clip c) t))).
    rewrite E, E1. split; [reflexivity|]. intros x [<-|Hx]; [exact B1|apply B, Hx].
  - rewrite E1, E, B1. split; [reflexivity|exact B].
Qed.
Lemma line_glyph_box l g : nested_line l -> In g (styled (ln_spans l)) -> proper (glyph_box (fst g)) /\ covers (ln_bbox l) (glyph_box (fst g)).
Proof.
  intros (_ & H) Hg. apply in_flat_map in Hg. destruct Hg as (s & Hs & Hg). destruct (H s Hs) as (N & C).
  destruct (span_box_of s g N Hg) as (P & C'). split; [exact P|exact (covers_trans _ _ _ C C')].
Qed.
Lemma line_clip_spec c l : proper c -> nested_line l ->
  styled (ln_spans (line_clip c l)) = filter (belongs c) (styled (ln_spans l)) /\ (box (ln_bbox (line_clip c l)) \/ line_clip c l = mkLine rect0 (ln_dir l) [] None false).
Proof.
  intros Pc Hn. pose proof (fun g => line_glyph_box l g Hn) as Hg. destruct Hn as ((P & D) & H). unfold line_clip.
  rewrite (rcontains_coversb c _ Pc P). destruct (coversb c (ln_bbox l)) eqn:C.
  - split; [|left; split; assumption]. symmetry. apply filter_all. intros g Hx. destruct (Hg g Hx) as (Pg & Cg).
    apply belongs_inside; [exact Pc|exact Pg|]. apply coversb_iff in C. exact (covers_trans _ _ _ C Cg).
  - destruct (clip_spans c (ln_spans l) Pc (fun s Hs => proj1 (H s Hs))) as (E & B).
    destruct (line_add_all_filter (map (span_clip c) (ln_spans l)) (mkLine rect0 (ln_dir l) [] None false)) as (E1 & E2).
    cbn [ln_spans ln_bbox app] in E1, E2. split; [rewrite E1; exact E|].
    destruct (filter span_bool (map (span_clip c) (ln_spans l))) as [|s t] eqn:F.
    + right. unfold line_add_all. clear - F. induction (map (span_clip c) (ln_spans l)) as [|x r IH]; [reflexivity|].
      cbn [filter] in F. destruct (span_bool x) eqn:X; [discriminate|]. cbn [fold_left]. unfold line_add at 2. rewrite X. apply IH. exact F.
    + left. rewrite E2. apply (fold_boxes0 span_bbox); [reflexivity|exact B].
Qed.
Lemma text_block_box l t : (forall x, In x (l :: t) -> box (ln_bbox x)) -> box (blk_bbox (text_block (l :: t))).
Proof.
  intros H. assert (G : forall ls r k, (forall x, In x ls -> box (ln_bbox x)) -> box r -> box (blk_bbox (fold_left (fun b l => match b with
                        | BText r k => if ln_bool l then BText (union_bbox r (ln_bbox l)) (k ++ [l]) else b
                        | BTable _ _ => b
                        end) ls (BText r k)))).
  { induction ls as [|x ls IH]; intros r k Hx Hr; cbn [fold_left]; [exact Hr|]. destruct (ln_bool x); apply IH; try (intros y Hy; apply Hx; right; exact Hy); [|exact Hr].
    apply union_box; [exact Hr|apply Hx; left; reflexivity]. }
  unfold text_block. cbn [fold_left]. assert (B : ln_bool l = true) by (apply proper_truthy, H; left; reflexivity). rewrite B. apply G.
  - intros x Hx. apply H. right. exact Hx.
  - apply union_zero; [reflexivity|]. apply H. left. reflexivity.
Qed.
Lemma text_block_filter ls : text_block ls = text_block (filter ln_bool ls).
Proof.
  unfold text_block. generalize (BText rect0 []) as bb. induction ls as [|l t IH]; intros bb; cbn [fold_left filter]; [reflexivity|].
  destruct (ln_bool l) eqn:B; [cbn [fold_left]; rewrite B; apply IH|]. destruct bb; apply IH.
Qed.
Lemma clip_lines c ls : proper c -> (forall l, In l ls -> nested_line l) ->
  line_glyphs (filter ln_bool (map (line_clip c) ls)) = filter (belongs c) (line_glyphs ls) /\
  forall l, In l (filter ln_bool (map (line_clip c) ls)) -> box (ln_bbox l).
Proof.
  intros Pc. induction ls as [|l t IH]; intros H; [split; [reflexivity|intros ? []]|].
  destruct (IH (fun x Hx => H x (or_intror Hx))) as (E & B). cbn [map filter].
  change (line_glyphs (l :: t)) with (styled (ln_spans l) ++ line_glyphs t). rewrite filter_app.
  destruct (line_clip_spec c l Pc (H l (or_introl eq_refl))) as (E1 & [B1|B1]).
  - assert (R : ln_bool (line_clip c l) = true) by (apply proper_truthy, B1). rewrite R.
    change (line_glyphs (line_clip c l :: filter ln_bool (map (line_clip c) t))) with (styled (ln_spans (line_clip c l)) ++ line_glyphs (filter ln_bool (map (line_clip c) t))).
    rewrite E, E1. split; [reflexivity|]. intros x [<-|Hx]; [exact B1|apply B, Hx].
  - rewrite <- E1, B1. change (ln_bool (mkLine rect0 (ln_dir l) [] None false)) with false. cbn [ln_spans]. split; [exact E|exact B].
Qed.
Lemma block_glyph_box b g : nested_block b -> In g (line_glyphs (blk_lines b)) -> proper (glyph_box (fst g)) /\ covers (blk_bbox b) (glyph_box (fst g)).
Proof.
  intros (_ & H) Hg. apply in_flat_map in Hg. destruct Hg as (l & Hl & Hg). destruct (H l Hl) as (N & C).
  destruct (line_glyph_box l g N Hg) as (P & C'). split; [exact P|exact (covers_trans _ _ _ C C')].
Qed.
Lemma assign_cell_spec c b : proper c -> nested_block b ->
  if almost_inside c (blk_bbox b) then assign_cell c b = [b]
  else block_glyphs (assign_cell c b) = filter (belongs c) (line_glyphs (blk_lines b)).
Proof.
  intros Pc Hn. pose proof (fun g => block_glyph_box b g Hn) as Hg. destruct Hn as ((P & D) & H). unfold assign_cell.
  rewrite (contains_almost c _ Pc P). destruct (almost_inside c (blk_bbox b)).
  - unfold blk_bool. rewrite (proper_truthy _ P). reflexivity.
  - destruct (rect_bool (rinter c (blk_bbox b))) eqn:R; cbn [negb].
    + destruct b as [r ls|k r]; [|reflexivity]. cbn [blk_lines blk_bbox] in *. rewrite text_block_filter.
      destruct (clip_lines c ls Pc (fun l Hl => proj1 (H l Hl))) as (E & B).
      set (f := filter ln_bool (map (line_clip c) ls)) in *. destruct f as [|x t] eqn:F.
      * rewrite <- E. reflexivity.
      * pose proof (text_block_box x t B) as Bt. destruct (text_block_lines (x :: t)) as (r' & Et).
        assert (Ff : filter ln_bool (x :: t) = x :: t) by (apply filter_all; intros y Hy; apply proper_truthy, B, Hy).
        rewrite Ff in Et. rewrite Et in *. unfold blk_bool. cbn [blk_bbox] in *. rewrite (proper_truthy _ (proj1 Bt)).
        unfold block_glyphs. cbn [flat_map blk_lines]. rewrite app_nil_r. exact E.
    + symmetry. apply filter_none. intros g Hx. destruct (Hg g Hx) as (Pg & Cg). apply belongs_apart; [exact Pc|exact Pg|].
      apply (apart_sub _ (blk_bbox b)); [|exact Cg]. apply apart_shared; [exact Pc|exact P|]. rewrite <- (shared_area _ _ Pc P).
      unfold rect_bool in R. apply negb_false_iff in R. rewrite !andb_true_iff, !qeq_iff in R. destruct R as (((R1 & R2) & R3) & R4).
      unfold area, rwidth, rheight. rewrite R1, R2, R3, R4. lra.
Qed.
(** Cells apart from a block, or holding it. *)
Lemma almost_apart c b : proper c -> proper b -> apart c b -> almost_inside c b = false.
Proof.
  intros Pc Pb Ha. unfold almost_inside. pose proof (shared_apart c b Ha). pose proof (area_pos b Pb).
  destruct (qlt_spec ((945 # 1000) * area b) (shared c b)); [lra|reflexivity].
Qed.
Lemma almost_covers c b : proper c -> proper b -> covers c b -> almost_inside c b = true.
Proof.
  intros Pc Pb Hc. unfold almost_inside. pose proof (shared_covers c b Hc Pb). pose proof (area_pos b Pb). destruct Hc as (C1 & C2 & C3 & C4).
  destruct (qlt_spec ((945 # 1000) * area b) (shared c b)); [|lra]. cbn [andb]. qcases; try reflexivity; exfalso; lra.
Qed.
Lemma parts_once {A B} (f : A -> B -> bool) (cs : list A) (L : list B) :
  (forall x, In x L -> exists c1 c c2, cs = c1 ++ c :: c2 /\ f c x = true /\ forall y, In y (c1 ++ c2) -> f y x = false) ->
  Permutation (flat_map (fun c => filter (f c) L) cs) L.
Proof.
  induction L as [|x t IH]; intros H.
  - clear H. cbn [filter]. induction cs as [|y r IH]; cbn [flat_map app]; [constructor|exact IH].
  - destruct (H x (or_introl eq_refl)) as (c1 & c & c2 & E & T & N). specialize (IH (fun y Hy => H y (or_intror Hy))). apply Permutation_trans with (x :: flat_map (fun c => filter (f c) t) cs); [|constructor; exact IH]. clear IH H.
    subst cs. rewrite !flat_map_app. cbn [flat_map filter]. rewrite T.
    assert (Z : forall l, (forall y, In y l -> f y x = false) -> flat_map (fun c0 => if f c0 x then x :: filter (f c0) t else filter (f c0) t) l = flat_map (fun c0 => filter (f c0) t) l).
    { induction l as [|y r IH]; intros Hl; [reflexivity|]. cbn [flat_map]. rewrite (Hl y (or_introl eq_refl)), IH; [reflexivity|]. intros z Hz. apply Hl. right. exact Hz. }
    rewrite !Z by (intros y Hy; apply N, in_or_app; tauto). cbn [app]. apply Permutation_sym, Permutation_middle.
Qed.
