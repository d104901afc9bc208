From Verif Require Import GeomModel GeomSpec GeomProof ShapeModel ParaModel ParaProof TableModel TableSpec TableProof TextProof StoreProof3 GridSpec GridProof GridProof2.
From Verif Require TableProps.
From Coq Require Import List Lia Permutation Lqa Sorted.
Import ListNotations.
Open Scope Q_scope.

Lemma half_pos x : 0 < x -> 0 < x / 2.
Proof. intros H. setoid_replace (x / 2) with (x * (1 # 2)) by field. lra. Qed.
(** Axis of a rule. *)
Lemma rule_h w x0 y x1 s : rule w x0 y x1 y s -> horizontal s = true /\ sh_width s = w /\ sh_kind s = KStroke /\
  coord true s = round1 y /\ s_from true s = x0 /\ s_to true s = x1 /\ rect_decimal (sh_bbox s) /\
  b_from true (sh_bbox s) = round1 (x0 - w / 2) /\ b_to true (sh_bbox s) = round1 (x1 + w / 2).
Proof.
  intros (col & ty & uri & ->). split; [apply zero_abs|]. repeat (split; [reflexivity|]). split; [apply rround_decimal|]. split; reflexivity.
Qed.
Lemma rule_v w x y0 y1 s : rule w x y0 x y1 s -> 1 < y1 - y0 -> horizontal s = false /\ vertical s = true /\ sh_width s = w /\ sh_kind s = KStroke /\
  coord false s = round1 x /\ s_from false s = y0 /\ s_to false s = y1 /\ rect_decimal (sh_bbox s) /\
  b_from false (sh_bbox s) = round1 (y0 - w / 2) /\ b_to false (sh_bbox s) = round1 (y1 + w / 2).
Proof.
  intros (col & ty & uri & ->) H. split; [apply far_abs; exact H|]. split; [apply zero_abs|]. repeat (split; [reflexivity|]). split; [apply rround_decimal|]. split; reflexivity.
Qed.
Lemma min_is l x : In x l -> (forall y, In y l -> x <= y) -> list_min l == x.
Proof. intros I M. destruct (list_min_spec l) as (A & B); [intros Z; rewrite Z in I; destruct I|]. apply Qle_antisym; [apply B, I|apply M, A]. Qed.
Lemma max_is l x : In x l -> (forall y, In y l -> y <= x) -> TableModel.list_max l == x.
Proof. intros I M. destruct (list_max_spec l) as (A & B); [intros Z; rewrite Z in I; destruct I|]. apply Qle_antisym; [apply M, A|apply B, I]. Qed.
Lemma map_positions (l : list Q) : map round1 l = map (fun i => round1 (nth i l 0)) (seq 0 (length l)).
Proof.
  apply nth_error_ext. intros i. rewrite !nth_error_map. destruct (nth_error l i) as [x|] eqn:E.
  - rewrite seq_nth_error by (apply nth_error_Some; congruence). cbn [option_map]. f_equal. f_equal. symmetry. apply nth_error_nth. exact E.
  - assert (Z : nth_error (seq 0 (length l)) i = None) by (apply nth_error_None; rewrite seq_length; apply nth_error_None, E). rewrite Z. reflexivity.
Qed.
Lemma nth_positions (f : nat -> Q) n i : (i <= n)%nat -> nth_error (map f (seq 0 (S n))) i = Some (f i).
Proof. intros H. rewrite nth_error_map, seq_nth_error by lia. reflexivity. Qed.

Section Grid.
Variables (c w d : Q) (g : grid) (strokes fills hs vs : list shape).
Hypothesis Hc : 0 <= c.
Hypothesis Hw : 0 <= w.
Hypothesis Hd : c + 1 <= d.
Hypothesis Ok : grid_ok d g.
Hypothesis PS : Permutation strokes (hs ++ vs).
Hypothesis Lh : length hs = length (g_ys g).
Hypothesis Lv : length vs = length (g_xs g).
Hypothesis Rh : forall i s, nth_error hs i = Some s -> rule (g_width g) (gx g (g_left g i)) (gy g i) (gx g (g_right g i)) (gy g i) s.
Hypothesis Rv : forall j s, nth_error vs j = Some s -> rule (g_width g) (gx g j) (gy g (g_top g j)) (gx g j) (gy g (g_bottom g j)) s.
Let d0 : 0 <= d. Proof. lra. Qed.
Lemma cols1 : (1 <= g_cols g)%nat. Proof. exact (proj1 Ok). Qed.
Lemma rows1 : (1 <= g_rows g)%nat. Proof. exact (proj1 (proj2 Ok)). Qed.
Lemma grid_lens : length (g_xs g) = S (g_cols g) /\ length (g_ys g) = S (g_rows g).
Proof. pose proof cols1. pose proof rows1. unfold g_cols, g_rows in *. lia. Qed.
Lemma grid_x i j : (i < j)%nat -> (j <= g_cols g)%nat -> gx g i + d < gx g j.
Proof. destruct Ok as (_ & _ & _ & S1 & _). apply (steps_lt _ _ _ d0 S1). Qed.
Lemma grid_y i j : (i < j)%nat -> (j <= g_rows g)%nat -> gy g i + d < gy g j.
Proof. destruct Ok as (_ & _ & _ & _ & S2 & _). apply (steps_lt _ _ _ d0 S2). Qed.
Lemma grid_xle i j : (i <= j)%nat -> (j <= g_cols g)%nat -> gx g i <= gx g j.
Proof. destruct Ok as (_ & _ & _ & S1 & _). apply (steps_le _ _ _ d0 S1). Qed.
Lemma grid_yle i j : (i <= j)%nat -> (j <= g_rows g)%nat -> gy g i <= gy g j.
Proof. destruct Ok as (_ & _ & _ & _ & S2 & _). apply (steps_le _ _ _ d0 S2). Qed.
Lemma h_at i : (i <= g_rows g)%nat -> exists s, nth_error hs i = Some s.
Proof. intros H. destruct (nth_error hs i) as [s|] eqn:E; [exists s; reflexivity|]. apply nth_error_None in E. destruct grid_lens. lia. Qed.
Lemma v_at j : (j <= g_cols g)%nat -> exists s, nth_error vs j = Some s.
Proof. intros H. destruct (nth_error vs j) as [s|] eqn:E; [exists s; reflexivity|]. apply nth_error_None in E. destruct grid_lens. lia. Qed.
Lemma h_idx s : In s hs -> exists i, (i <= g_rows g)%nat /\ nth_error hs i = Some s.
Proof. intros H. apply In_nth_error in H. destruct H as (i & Hi). exists i. split; [|exact Hi]. assert (i < length hs)%nat by (apply nth_error_Some; congruence). destruct grid_lens. lia. Qed.
Lemma v_idx s : In s vs -> exists i, (i <= g_cols g)%nat /\ nth_error vs i = Some s.
Proof. intros H. apply In_nth_error in H. destruct H as (i & Hi). exists i. split; [|exact Hi]. assert (i < length vs)%nat by (apply nth_error_Some; congruence). destruct grid_lens. lia. Qed.
Lemma v_tall j : (j <= g_cols g)%nat -> 1 < gy g (g_bottom g j) - gy g (g_top g j).
Proof. intros H. destruct Ok as (_ & _ & _ & _ & _ & _ & TB & _). destruct (TB j H) as (A & B). pose proof (grid_y _ _ A B). lra. Qed.
Lemma part_h : Permutation (h_part strokes) hs.
Proof.
  unfold h_part. eapply Permutation_trans; [apply filter_perm; exact PS|]. rewrite filter_app. rewrite (filter_all horizontal hs), (filter_none horizontal vs), app_nil_r; [reflexivity| |].
  - intros s Hs. destruct (v_idx s Hs) as (j & Hj & Ej). apply (rule_v _ _ _ _ _ (Rv j s Ej) (v_tall j Hj)).
  - intros s Hs. destruct (h_idx s Hs) as (i & Hi & Ei). apply (rule_h _ _ _ _ _ (Rh i s Ei)).
Qed.
Lemma part_v : Permutation (v_part strokes) vs.
Proof.
  unfold v_part. eapply Permutation_trans; [apply filter_perm; exact PS|]. rewrite filter_app. rewrite (filter_none _ hs), (filter_all _ vs); [reflexivity| |].
  - intros s Hs. destruct (v_idx s Hs) as (j & Hj & Ej). destruct (rule_v _ _ _ _ _ (Rv j s Ej) (v_tall j Hj)) as (-> & -> & _). reflexivity.
  - intros s Hs. destruct (h_idx s Hs) as (i & Hi & Ei). destruct (rule_h _ _ _ _ _ (Rh i s Ei)) as (-> & _). reflexivity.
Qed.
Definition grid_region : rect := rround (mkRect (gx g 0) (gy g 0) (gx g (g_cols g)) (gy g (g_rows g))).
Lemma region_is : table_region (h_part strokes) (v_part strokes) = grid_region.
Proof.
  unfold table_region, grid_region, rround. cbn [rx0 ry0 rx1 ry1].
  destruct Ok as (C1 & C2 & _ & _ & _ & LR & TB & E1 & E2 & _ & _ & E3 & E4 & _).
  assert (Ih : forall s, In s (h_part strokes) <-> In s hs) by (intros s; split; apply Permutation_in; [apply part_h|apply Permutation_sym, part_h]).
  assert (Iv : forall s, In s (v_part strokes) <-> In s vs) by (intros s; split; apply Permutation_in; [apply part_v|apply Permutation_sym, part_v]).
  destruct (h_at 0 ltac:(lia)) as (s0 & S0). destruct (v_at 0 ltac:(lia)) as (t0 & T0).
  destruct (rule_h _ _ _ _ _ (Rh _ _ S0)) as (_ & _ & _ & _ & X1 & X2 & _). destruct (rule_v _ _ _ _ _ (Rv _ _ T0) (v_tall 0 ltac:(lia))) as (_ & _ & _ & _ & _ & Y1 & Y2 & _).
  rewrite E1 in X1. rewrite E2 in X2. rewrite E3 in Y1. rewrite E4 in Y2. unfold s_from, s_to in *.
  f_equal; apply round1_comp.
  - apply min_is; [apply in_map_iff; exists s0; split; [exact X1|apply Ih; eapply nth_error_In; exact S0]|].
    intros y Hy. apply in_map_iff in Hy. destruct Hy as (s & <- & Hs). apply Ih in Hs. destruct (h_idx s Hs) as (i & Hi & Ei). destruct (rule_h _ _ _ _ _ (Rh i s Ei)) as (_ & _ & _ & _ & X & _).
    unfold s_from in X. rewrite X. destruct (LR i Hi). apply grid_xle; lia.
  - apply min_is; [apply in_map_iff; exists t0; split; [exact Y1|apply Iv; eapply nth_error_In; exact T0]|].
    intros y Hy. apply in_map_iff in Hy. destruct Hy as (s & <- & Hs). apply Iv in Hs. destruct (v_idx s Hs) as (i & Hi & Ei). destruct (rule_v _ _ _ _ _ (Rv i s Ei) (v_tall i Hi)) as (_ & _ & _ & _ & _ & X & _).
    unfold s_from in X. rewrite X. destruct (TB i Hi). apply grid_yle; lia.
  - apply max_is; [apply in_map_iff; exists s0; split; [exact X2|apply Ih; eapply nth_error_In; exact S0]|].
    intros y Hy. apply in_map_iff in Hy. destruct Hy as (s & <- & Hs). apply Ih in Hs. destruct (h_idx s Hs) as (i & Hi & Ei). destruct (rule_h _ _ _ _ _ (Rh i s Ei)) as (_ & _ & _ & _ & _ & X & _).
    unfold s_to in X. rewrite X. destruct (LR i Hi). apply grid_xle; lia.
  - apply max_is; [apply in_map_iff; exists t0; split; [exact Y2|apply Iv; eapply nth_error_In; exact T0]|].
    intros y Hy. apply in_map_iff in Hy. destruct Hy as (s & <- & Hs). apply Iv in Hs. destruct (v_idx s Hs) as (i & Hi & Ei). destruct (rule_v _ _ _ _ _ (Rv i s Ei) (v_tall i Hi)) as (_ & _ & _ & _ & _ & _ & X & _).
    unfold s_to in X. rewrite X. destruct (TB i Hi). apply grid_yle; lia.
Qed.
Definition grid_h : dict := finished true c w grid_region (h_part strokes).
Definition grid_v : dict := finished false c w grid_region (v_part strokes).
Lemma h_lines i s : nth_error hs i = Some s -> coord true s = round1 (gy g i) /\ s_from true s = gx g (g_left g i) /\ s_to true s = gx g (g_right g i) /\
  rect_decimal (sh_bbox s) /\ b_from true (sh_bbox s) = round1 (gx g (g_left g i) - g_width g / 2) /\ b_to true (sh_bbox s) = round1 (gx g (g_right g i) + g_width g / 2).
Proof. intros H. apply (rule_h _ _ _ _ _ (Rh i s H)). Qed.
Lemma v_lines i s : nth_error vs i = Some s -> coord false s = round1 (gx g i) /\ s_from false s = gy g (g_top g i) /\ s_to false s = gy g (g_bottom g i) /\
  rect_decimal (sh_bbox s) /\ b_from false (sh_bbox s) = round1 (gy g (g_top g i) - g_width g / 2) /\ b_to false (sh_bbox s) = round1 (gy g (g_bottom g i) + g_width g / 2).
Proof.
  intros H. assert (Hi : (i <= g_cols g)%nat) by (assert (i < length vs)%nat by (apply nth_error_Some; congruence); destruct grid_lens; lia).
  apply (rule_v _ _ _ _ _ (Rv i s H) (v_tall i Hi)).
Qed.
Lemma grid_h_spec : keys_distinct grid_h /\ sorted_keys grid_h = map round1 (g_ys g) /\
  forall i s, nth_error hs i = Some s -> exists dums, dget (round1 (gy g i)) grid_h = Some (s :: dums) /\ forall x, In x dums -> backwards true x.
Proof.
  destruct Ok as (C1 & C2 & W & S1 & S2 & LR & TB & E1 & E2 & E5 & E6 & _). rewrite (map_positions (g_ys g)), (proj2 grid_lens).
  apply (lines_finished true c w d grid_region (gy g) (gx g) (g_rows g) (g_cols g) (g_left g) (g_right g) hs (h_part strokes) (g_width g)); try assumption; try reflexivity.
  - rewrite Lh. apply grid_lens.
  - exact h_lines.
  - apply part_h.
  - apply rround_decimal.
Qed.
Lemma grid_v_spec : keys_distinct grid_v /\ sorted_keys grid_v = map round1 (g_xs g) /\
  forall i s, nth_error vs i = Some s -> exists dums, dget (round1 (gx g i)) grid_v = Some (s :: dums) /\ forall x, In x dums -> backwards false x.
Proof.
  destruct Ok as (C1 & C2 & W & S1 & S2 & LR & TB & _ & _ & _ & _ & E1 & E2 & E5 & E6). rewrite (map_positions (g_xs g)), (proj1 grid_lens).
  apply (lines_finished false c w d grid_region (gx g) (gy g) (g_cols g) (g_rows g) (g_top g) (g_bottom g) vs (v_part strokes) (g_width g)); try assumption; try reflexivity.
  - rewrite Lv. apply grid_lens.
  - exact v_lines.
  - apply part_v.
  - apply rround_decimal.
Qed.
Lemma group_is : group_h_v c w strokes = Some (grid_h, grid_v).
Proof.
  unfold group_h_v. pose proof part_h as P1. pose proof part_v as P2. destruct grid_lens as (L1 & L2). pose proof Lh as Lh'. pose proof Lv as Lv'.
  pose proof region_is as RI. unfold grid_h, grid_v, finished. rewrite <- RI.
  destruct (h_part strokes) as [|x l]; [exfalso; apply Permutation_nil in P1; rewrite P1, L2 in Lh'; discriminate|].
  destruct (v_part strokes) as [|y l']; [exfalso; apply Permutation_nil in P2; rewrite P2, L1 in Lv'; discriminate|]. reflexivity.
Qed.
Lemma grid_parsed : exists st, parse_structure c w strokes fills = Parsed st /\ st_h st = grid_h /\ st_v st = grid_v /\
  st_xs st = map round1 (g_xs g) /\ st_ys st = map round1 (g_ys g).
Proof.
  pose proof (parse_total c w strokes fills) as T. rewrite group_is in T.
  destruct grid_h_spec as (_ & Kh & _). destruct grid_v_spec as (_ & Kv & _). destruct grid_lens as (L1 & L2).
  assert (Ly : length grid_h = S (g_rows g)) by (rewrite <- sorted_keys_length, Kh, map_length; exact L2).
  assert (Lx : length grid_v = S (g_cols g)) by (rewrite <- sorted_keys_length, Kv, map_length; exact L1).
  pose proof cols1. pose proof rows1.
  destruct (parse_structure c w strokes fills) as [| |st] eqn:P.
  - lia.
  - destruct T as (hd & vd & E & _ & B). injection E as <- <-. lia.
  - exists st. split; [reflexivity|]. destruct (parse_inv _ _ _ _ _ P) as (vb & hb & G & Ex & Ey & _). rewrite group_is in G. injection G as Gh Gv.
    split; [congruence|]. split; [congruence|]. rewrite Ex, Ey, <- Gh, <- Gv. auto.
Qed.
Lemma grid_cell st i j ce : parse_structure c w strokes fills = Parsed st -> cell_at st i j ce -> (i < g_rows g)%nat /\ (j < g_cols g)%nat /\
  cell_extent g i j (ce_rows ce) (ce_cols ce) /\
  ce_bbox ce = mkRect (round1 (gx g j)) (round1 (gy g i)) (round1 (gx g (j + ce_cols ce))) (round1 (gy g (i + ce_rows ce))).
Proof.
  intros P Hc'. destruct grid_parsed as (st' & P' & Eh & Ev & Exs & Eys). rewrite P in P'. injection P' as <-.
  destruct (parse_inv _ _ _ _ _ P) as (vb & hb & G & Ex & Ey & Lx & Ly & Lkv & Lkh & Lc & Lr & _).
  destruct (cell_shell _ _ _ _ _ _ _ P Lkv Lkh i j ce Hc') as (Hi & Hj & Sh). unfold shell, merge_cell in Sh. cbn [ce_rows ce_cols ce_bbox] in Sh. injection Sh as S1 S2 S3.
  destruct grid_lens as (L1 & L2). unfold nrows in Hi. unfold ncols in Hj. rewrite Eys, map_length, L2 in Hi. rewrite Exs, map_length, L1 in Hj.
  assert (Hi' : (i < g_rows g)%nat) by lia. assert (Hj' : (j < g_cols g)%nat) by lia.
  destruct (lookup_all_nth _ _ _ Lkv) as (Lvb & Nvb). destruct (lookup_all_nth _ _ _ Lkh) as (Lhb & Nhb).
  assert (Nx : forall k, (k <= g_cols g)%nat -> nth_error (st_xs st) k = Some (round1 (gx g k))) by (intros k Hk; rewrite Exs, map_positions, L1; apply (nth_positions (fun i => round1 (gx g i))), Hk).
  assert (Ny : forall k, (k <= g_rows g)%nat -> nth_error (st_ys st) k = Some (round1 (gy g k))) by (intros k Hk; rewrite Eys, map_positions, L2; apply (nth_positions (fun i => round1 (gy g i))), Hk).
  destruct Ok as (C1 & C2 & W & Sx & Sy & LR & TB & E1 & E2 & E5 & E6 & E3 & E4 & E7 & E8).
  assert (Ext : cell_extent g i j (ce_rows ce) (ce_cols ce)).
  { rewrite S1, S2. split; unfold status_at.
    - destruct (col_status_nth (st_xs st) (st_ys st) hb j) as (x0 & x1 & X0 & X1 & ->); [rewrite Exs, map_length; lia|].
      rewrite Nx in X0 by lia. rewrite Nx in X1 by lia. injection X0 as <-. injection X1 as <-.
      set (l := check_merged true _ hb). assert (Ll : length l = g_rows g) by (unfold l; rewrite check_merged_length, Lhb, Eys, map_length; lia). rewrite <- Ll in Hi' |- *.
      apply (run_length_ext (fun k => nth_error l k = Some true)); [|exact Hi'|apply count_run; exact Hi'].
      intros k Hk. destruct (status_nth true (middle (round1 (gx g j), round1 (gx g (S j)))) hb k) as (v & Hv & Hs); [rewrite Lhb, Eys, map_length; lia|]. fold l in Hs. rewrite Hs.
      destruct (Nhb k _ (Ny k ltac:(lia))) as (v' & V1 & V2). rewrite Hv in V1. injection V1 as <-. rewrite Eh in V2.
      destruct (h_at k ltac:(lia)) as (s & Hs'). destruct grid_h_spec as (_ & _ & Gs). destruct (Gs k s Hs') as (dums & D1 & D2). rewrite D1 in V2. injection V2 as <-.
      rewrite <- (lines_crossed true c d (gy g) (gx g) (g_rows g) (g_cols g) (g_left g) (g_right g) hs (g_width g) Hc Hd C2 C1 Sx LR E1 E2 E5 E6 (eq_trans Lh L2) h_lines k j s dums Hj' Hs' D2).
      unfold has_top. split; [intros Z; injection Z as Z; exact Z|intros ->; reflexivity].
    - destruct (row_status_nth (st_xs st) (st_ys st) vb i) as (x0 & x1 & X0 & X1 & ->); [rewrite Eys, map_length; lia|].
      rewrite Ny in X0 by lia. rewrite Ny in X1 by lia. injection X0 as <-. injection X1 as <-.
      set (l := check_merged false _ vb). assert (Ll : length l = g_cols g) by (unfold l; rewrite check_merged_length, Lvb, Exs, map_length; lia). rewrite <- Ll in Hj' |- *.
      apply (run_length_ext (fun k => nth_error l k = Some true)); [|exact Hj'|apply count_run; exact Hj'].
      intros k Hk. destruct (status_nth false (middle (round1 (gy g i), round1 (gy g (S i)))) vb k) as (v & Hv & Hs); [rewrite Lvb, Exs, map_length; lia|]. fold l in Hs. rewrite Hs.
      destruct (Nvb k _ (Nx k ltac:(lia))) as (v' & V1 & V2). rewrite Hv in V1. injection V1 as <-. rewrite Ev in V2.
      destruct (v_at k ltac:(lia)) as (s & Hs'). destruct grid_v_spec as (_ & _ & Gs). destruct (Gs k s Hs') as (dums & D1 & D2). rewrite D1 in V2. injection V2 as <-.
      rewrite <- (lines_crossed false c d (gx g) (gy g) (g_cols g) (g_rows g) (g_top g) (g_bottom g) vs (g_width g) Hc Hd C1 C2 Sy TB E3 E4 E7 E8 (eq_trans Lv L1) v_lines k i s dums Hi' Hs' D2).
      unfold has_left. split; [intros Z; injection Z as Z; exact Z|intros ->; reflexivity]. }
  split; [exact Hi'|]. split; [exact Hj'|]. split; [exact Ext|]. rewrite S3, <- S1, <- S2.
  assert (Bx : (j + ce_cols ce <= g_cols g)%nat) by (destruct Ext as (_ & [(_ & ->)|(_ & _ & B & _)]); lia).
  assert (By : (i + ce_rows ce <= g_rows g)%nat) by (destruct Ext as ([(_ & ->)|(_ & _ & B & _)] & _); lia).
  f_equal; apply nth_error_nth; first [apply Nx|apply Ny]; lia.
Qed.

Lemma cell_lens st : parse_structure c w strokes fills = Parsed st -> nrows st = g_rows g /\ ncols st = g_cols g.
Proof.
  intros P. destruct grid_parsed as (st' & P' & _ & _ & Exs & Eys). rewrite P in P'. injection P' as <-. unfold nrows, ncols. rewrite Exs, Eys, !map_length. split; reflexivity.
Qed.
Lemma cell_total st i j : parse_structure c w strokes fills = Parsed st -> (i < g_rows g)%nat -> (j < g_cols g)%nat -> exists ce, cell_at st i j ce.
Proof.
  intros P Hi Hj. destruct (parse_inv _ _ _ _ _ P) as (vb & hb & _ & _ & _ & _ & _ & _ & _ & _ & _ & A). destruct (cell_lens st P) as (N1 & N2).
  destruct (A i j ltac:(lia) ltac:(lia)) as (ce & Hce & _). exists ce. exact Hce.
Qed.
Lemma merged_iff ce : is_merged ce = true <-> ce_rows ce = 0%nat \/ ce_cols ce = 0%nat.
Proof. unfold is_merged. rewrite orb_true_iff, !Nat.eqb_eq. reflexivity. Qed.
Lemma extent_pos i j m n : cell_extent g i j m n -> (has_top g i j <-> (0 < m)%nat) /\ (has_left g i j <-> (0 < n)%nat) /\ ((i < g_rows g)%nat -> i + m <= g_rows g)%nat /\ ((j < g_cols g)%nat -> j + n <= g_cols g)%nat.
Proof.
  intros ([(A & ->)|(A & B & C & _)] & [(A' & ->)|(A' & B' & C' & _)]); (split; [split; intros Z; first [lia|contradiction|exact A]|]); (split; [split; intros Z; first [lia|contradiction|exact A']|]); split; lia.
Qed.
Lemma grid_full st : parse_structure c w strokes fills = Parsed st -> rows_start g -> forall i, (i < nrows st)%nat -> exists j ce, cell_at st i j ce /\ is_merged ce = false /\ rect_empty (rround (ce_bbox ce)) = false.
Proof.
  intros P RS. destruct (cell_lens st P) as (N1 & N2).
  intros i Hi. rewrite N1 in Hi. destruct (RS i Hi) as (j & Hj & Hl & Ht). destruct (cell_total st i j P Hi Hj) as (ce & Hce). exists j, ce. split; [exact Hce|].
    destruct (grid_cell st i j ce P Hce) as (_ & _ & Ext & Bx). destruct (extent_pos _ _ _ _ Ext) as (X1 & X2 & X3 & X4). apply X1 in Ht. apply X2 in Hl. specialize (X3 Hi). specialize (X4 Hj). split.
    - destruct (is_merged ce) eqn:E; [|reflexivity]. apply merged_iff in E. lia.
    - apply proper_nonempty. rewrite Bx. unfold proper, rround. cbn [rx0 ry0 rx1 ry1]. rewrite !round1_round1.
      pose proof (grid_x j (j + ce_cols ce) ltac:(lia) X4). pose proof (grid_y i (i + ce_rows ce) ltac:(lia) X3).
      pose proof (round1_bound (gx g j)). pose proof (round1_bound (gx g (j + ce_cols ce))). pose proof (round1_bound (gy g i)). pose proof (round1_bound (gy g (i + ce_rows ce))). split; lra.
Qed.
Lemma grid_rows st : parse_structure c w strokes fills = Parsed st -> rows_start g -> rows_as_drawn g (map br_cells (to_table st)).
Proof.
  intros P RS. destruct (cell_lens st P) as (N1 & N2).
  destruct (TableProps.C56_block c w strokes fills st P) as (Len & Rows & _).
  { exact (grid_full st P RS). }
  split; [rewrite map_length; congruence|]. intros i r Hr. rewrite nth_error_map in Hr. destruct (nth_error (to_table st) i) as [br|] eqn:Eb; [|discriminate]. cbn [option_map] in Hr. injection Hr as <-.
  destruct (Rows i br Eb) as (Lr & _ & Cs). split; [congruence|]. intros j o Ho.
  assert (Hi : (i < g_rows g)%nat) by (rewrite <- N1, <- Len; apply nth_error_Some; congruence).
  assert (Hj : (j < g_cols g)%nat) by (rewrite <- N2, <- Lr; apply nth_error_Some; congruence).
  destruct (cell_total st i j P Hi Hj) as (ce & Hce). destruct (Cs j ce Hce) as (o' & Ho' & M). rewrite Ho in Ho'. injection Ho' as <-.
  destruct (grid_cell st i j ce P Hce) as (_ & _ & Ext & Bx). exists (ce_rows ce), (ce_cols ce). split; [exact Ext|].
  destruct o as [b|]; [|apply merged_iff; exact M]. destruct M as (M1 & M2 & M3 & _).
  assert (Nz : ~ (ce_rows ce = 0 \/ ce_cols ce = 0)%nat) by (intros Z; apply merged_iff in Z; congruence).
  split; [lia|]. split; [lia|]. split; [|exact M3]. rewrite M2, Bx. unfold place, rround. cbn [rx0 ry0 rx1 ry1]. rewrite !round1_round1. reflexivity.
Qed.
Lemma grid_heights st : parse_structure c w strokes fills = Parsed st -> rows_start g ->
  map (fun r => (br_height r, List.length (br_cells r))) (to_table st) = map (fun i => (round1 (gy g (S i)) - round1 (gy g i), g_cols g)) (seq 0 (g_rows g)).
Proof.
  intros P RS. destruct (cell_lens st P) as (N1 & N2). destruct (TableProps.C56_block c w strokes fills st P (grid_full st P RS)) as (Len & Rows & _).
  destruct grid_parsed as (st' & P' & _ & _ & _ & Ey). rewrite P in P'. injection P' as <-. destruct grid_lens as (_ & L2).
  assert (Ny : forall k y, nth_error (st_ys st) k = Some y -> y = round1 (gy g k)).
  { intros k y Hy. rewrite Ey, nth_error_map in Hy. destruct (nth_error (g_ys g) k) as [v|] eqn:E; [|discriminate]. injection Hy as <-. unfold gy. rewrite (nth_error_nth _ _ 0 E). reflexivity. }
  apply nth_ext with (d := (0, 0%nat)) (d' := (0, 0%nat)); [rewrite !map_length, seq_length; lia|]. intros i Hi. rewrite map_length in Hi.
  destruct (nth_error (to_table st) i) as [br|] eqn:Eb; [|apply nth_error_None in Eb; lia].
  destruct (Rows i br Eb) as (Lr & (y0 & y1 & Y0 & Y1 & Eh) & _).
  erewrite (nth_error_nth _ i); [|apply map_nth_error; exact Eb].
  erewrite (nth_error_nth _ i); [|apply (map_nth_error (fun i => (round1 (gy g (S i)) - round1 (gy g i), g_cols g))); rewrite (nth_error_nth' _ 0%nat) by (rewrite seq_length; lia); rewrite seq_nth by lia; reflexivity].
  rewrite Eh, (Ny _ _ Y0), (Ny _ _ Y1), Lr, N2. reflexivity.
Qed.
Lemma border_line h x0 x1 s dums : s_from h s <= x0 + (1 # 10) -> x1 - (1 # 10) <= s_to h s -> 6 <= x1 - x0 -> (forall x, In x dums -> backwards h x) -> border_stroke h x0 x1 (s :: dums) = s.
Proof.
  intros F T L B. assert (Dm : border_scan h x0 x1 dums = (0, [])).
  { clear F T. induction dums as [|x t IH]; [reflexivity|]. cbn [border_scan]. rewrite IH by (intros y Hy; apply B; right; exact Hy). destruct (qle (s_to h x) x0); [reflexivity|]. destruct (qle x1 (s_from h x)); [reflexivity|].
    destruct (qlt_spec (qmin x1 (s_to h x) - qmax x0 (s_from h x)) MAJOR_DIST) as [G|G]; [reflexivity|]. exfalso. apply G. unfold MAJOR_DIST.
    pose proof (B x (or_introl eq_refl)) as Bx. unfold backwards in Bx. unfold qmin, qmax. qcases; lra. }
  unfold border_stroke. cbn [border_scan]. destruct (qle_spec (s_to h s) x0) as [G|_]; [lra|]. destruct (qle_spec x1 (s_from h s)) as [G|_]; [lra|].
  assert (Sh : x1 - x0 - (2 # 10) <= qmin x1 (s_to h s) - qmax x0 (s_from h s)) by (unfold qmin, qmax; qcases; lra).
  set (dl := qmin x1 (s_to h s) - qmax x0 (s_from h s)) in *.
  destruct (qlt_spec dl MAJOR_DIST) as [G|_]; [unfold MAJOR_DIST in G; lra|]. rewrite Dm.
  destruct (qlt_spec ((dl + 0) / (x1 - x0)) FACTOR_MAJOR) as [G|_]; [exfalso|reflexivity].
  assert (Z : dl == (dl + 0) / (x1 - x0) * (x1 - x0)) by (field; lra).
  assert (Y : (dl + 0) / (x1 - x0) * (x1 - x0) < FACTOR_MAJOR * (x1 - x0)) by (apply Qmult_lt_r; [lra|exact G]). unfold FACTOR_MAJOR in Y. lra.
Qed.
Hypothesis D6 : 7 <= d.
Lemma side_h i j n s dums : (i <= g_rows g)%nat -> (0 < n)%nat -> (j + n <= g_cols g)%nat -> (forall k, (j <= k < j + n)%nat -> has_top g i k) -> nth_error hs i = Some s -> (forall x, In x dums -> backwards true x) ->
  border_stroke true (round1 (gx g j)) (round1 (gx g (j + n))) (s :: dums) = s.
Proof.
  intros Hi Hn Hj T Hs B. destruct (h_lines i s Hs) as (_ & F & E & _). destruct (T j ltac:(lia)) as (T1 & _). destruct (T (j + n - 1)%nat ltac:(lia)) as (_ & T2).
  destruct Ok as (_ & _ & _ & _ & _ & LR & _). destruct (LR i Hi) as (_ & T3).
  pose proof (grid_xle (g_left g i) j T1 ltac:(lia)). pose proof (grid_xle (j + n) (g_right g i) ltac:(lia) T3). pose proof (grid_x j (j + n) ltac:(lia) Hj).
  pose proof (round1_bound (gx g j)). pose proof (round1_bound (gx g (j + n))). apply border_line; [rewrite F; lra|rewrite E; lra|lra|exact B].
Qed.
Lemma side_v i j m s dums : (j <= g_cols g)%nat -> (0 < m)%nat -> (i + m <= g_rows g)%nat -> (forall k, (i <= k < i + m)%nat -> has_left g k j) -> nth_error vs j = Some s -> (forall x, In x dums -> backwards false x) ->
  border_stroke false (round1 (gy g i)) (round1 (gy g (i + m))) (s :: dums) = s.
Proof.
  intros Hj Hm Hi T Hs B. destruct (v_lines j s Hs) as (_ & F & E & _). destruct (T i ltac:(lia)) as (T1 & _). destruct (T (i + m - 1)%nat ltac:(lia)) as (_ & T2).
  destruct Ok as (_ & _ & _ & _ & _ & _ & TB & _). destruct (TB j Hj) as (_ & T3).
  pose proof (grid_yle (g_top g j) i T1 ltac:(lia)). pose proof (grid_yle (i + m) (g_bottom g j) ltac:(lia) T3). pose proof (grid_y i (i + m) ltac:(lia) Hi).
  pose proof (round1_bound (gy g i)). pose proof (round1_bound (gy g (i + m))). apply border_line; [rewrite F; lra|rewrite E; lra|lra|exact B].
Qed.
Lemma grid_borders st : parse_structure c w strokes fills = Parsed st -> rows_start g -> borders_as_drawn g strokes (map br_cells (to_table st)).
Proof.
  intros P RS i j r b m n Hr Hb Mb (SD1 & SD2). destruct (grid_rows st P RS) as (LR & RR). destruct (RR i r Hr) as (Lr & RC). destruct (RC j _ Hb) as (m' & n' & Ext & Pm & Pn & _ & Mb'). rewrite Mb in Mb'. injection Mb' as <- <-.
  destruct (cell_lens st P) as (N1 & N2).
  assert (Hi : (i < g_rows g)%nat) by (rewrite <- LR; apply nth_error_Some; congruence). assert (Hj : (j < g_cols g)%nat) by (rewrite <- Lr; apply nth_error_Some; congruence).
  destruct (extent_pos _ _ _ _ Ext) as (_ & _ & Bi & Bj). specialize (Bi Hi). specialize (Bj Hj).
  destruct (cell_total st i j P Hi Hj) as (ce & Hce).
  rewrite nth_error_map in Hr. destruct (nth_error (to_table st) i) as [br|] eqn:Eb; [|discriminate]. cbn [option_map] in Hr. injection Hr as <-.
  destruct (TableProps.C56_block c w strokes fills st P) as (_ & Rows & _).
  { intros i' Hi'. rewrite N1 in Hi'. destruct (RS i' Hi') as (j' & Hj' & Hl & Ht). destruct (cell_total st i' j' P Hi' Hj') as (ce' & Hce'). exists j', ce'. split; [exact Hce'|].
    destruct (grid_cell st i' j' ce' P Hce') as (_ & _ & Ext' & Bx). destruct (extent_pos _ _ _ _ Ext') as (X1 & X2 & X3 & X4). apply X1 in Ht. apply X2 in Hl. specialize (X3 Hi'). specialize (X4 Hj'). split.
    - destruct (is_merged ce') eqn:E; [|reflexivity]. apply merged_iff in E. lia.
    - apply proper_nonempty. rewrite Bx. unfold proper, rround. cbn [rx0 ry0 rx1 ry1]. rewrite !round1_round1.
      pose proof (grid_x j' (j' + ce_cols ce') ltac:(lia) X4). pose proof (grid_y i' (i' + ce_rows ce') ltac:(lia) X3).
      pose proof (round1_bound (gx g j')). pose proof (round1_bound (gx g (j' + ce_cols ce'))). pose proof (round1_bound (gy g i')). pose proof (round1_bound (gy g (i' + ce_rows ce'))). split; lra. }
  destruct (Rows i br Eb) as (_ & _ & Cs). destruct (Cs j ce Hce) as (o' & Ho' & M). rewrite Hb in Ho'. injection Ho' as <-. destruct M as (M1 & _ & M3 & _ & tp & bt & lf & rg & Eb4 & Ec & Ew).
  rewrite Mb in M3. injection M3 as Em En. destruct (grid_cell st i j ce P Hce) as (_ & _ & _ & Bx). rewrite <- Em, <- En in Bx.
  destruct (cell_finish c w strokes fills st i j ce P Hce M1) as (bs & PB & Eb5 & _). rewrite Eb4 in Eb5. injection Eb5 as <-. rewrite Bx in PB. unfold parse_borders in PB. cbn [rx0 ry0 rx1 ry1] in PB.
  destruct grid_parsed as (st' & P' & Eh & Ev & _ & _). rewrite P in P'. injection P' as <-. rewrite Eh, Ev in PB.
  destruct (h_at i ltac:(lia)) as (s1 & S1). destruct (h_at (i + m) ltac:(lia)) as (s2 & S2). destruct (v_at j ltac:(lia)) as (s3 & S3). destruct (v_at (j + n) ltac:(lia)) as (s4 & S4).
  destruct grid_h_spec as (_ & _ & Gh). destruct grid_v_spec as (_ & _ & Gv).
  destruct (Gh i s1 S1) as (d1 & D1 & B1). destruct (Gh (i + m)%nat s2 S2) as (d2 & D2 & B2). destruct (Gv j s3 S3) as (d3 & D3 & B3). destruct (Gv (j + n)%nat s4 S4) as (d4 & D4 & B4).
  rewrite D1, D2, D3, D4 in PB.
  rewrite (side_h i j n s1 d1), (side_h (i + m) j n s2 d2), (side_v i j m s3 d3), (side_v i (j + n) m s4 d4) in PB; try assumption; try lia; try (intros k Hk; apply SD1, Hk); try (intros k Hk; apply SD2, Hk).
  injection PB as <- <- <- <-. rewrite Ec, Ew.
  assert (Inh : forall s k, nth_error hs k = Some s -> In s strokes) by (intros s k Hk; eapply Permutation_in; [apply Permutation_sym, PS|]; apply in_or_app; left; eapply nth_error_In; exact Hk).
  assert (Inv : forall s k, nth_error vs k = Some s -> In s strokes) by (intros s k Hk; eapply Permutation_in; [apply Permutation_sym, PS|]; apply in_or_app; right; eapply nth_error_In; exact Hk).
  destruct (rule_h _ _ _ _ _ (Rh _ _ S1)) as (_ & -> & _). destruct (rule_h _ _ _ _ _ (Rh _ _ S2)) as (_ & -> & _).
  destruct (rule_v _ _ _ _ _ (Rv _ _ S3) (v_tall j ltac:(lia))) as (_ & _ & -> & _). destruct (rule_v _ _ _ _ _ (Rv _ _ S4) (v_tall (j + n) ltac:(lia))) as (_ & _ & -> & _).
  split; [reflexivity|]. exists s1, s4, s2, s3. split; [exact (Inh _ _ S1)|]. split; [exact (Inv _ _ S4)|]. split; [exact (Inh _ _ S2)|]. split; [exact (Inv _ _ S3)|].
  split; [exact (Rh _ _ S1)|]. split; [exact (Rv _ _ S4)|]. split; [exact (Rh _ _ S2)|]. split; [exact (Rv _ _ S3)|]. reflexivity.
Qed.
End Grid.
