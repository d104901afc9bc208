From Verif Require Import GeomModel GeomSpec GeomProof ShapeModel ParaModel ParaProof TableModel TableSpec TableProof TextProof StoreProof3 GridSpec GridProof GridProof2 GridProof3.
From Verif Require Import InterModel InterSpec InterProof.
From Verif Require TableProps.
From Coq Require Import List Lia Permutation Lqa Sorted Relations.
Import ListNotations.
Open Scope Q_scope.

Lemma NoDup_app_l {A} (l m : list A) : NoDup (l ++ m) -> NoDup l.
Proof. induction l as [|x l IH]; intros H; [constructor|]. cbn [app] in H. inversion H as [|y t N D]; subst. constructor; [intros X; apply N, in_or_app; left; exact X|apply IH, D]. Qed.
Lemma NoDup_app_r {A} (l m : list A) : NoDup (l ++ m) -> NoDup m.
Proof. induction l as [|x l IH]; intros H; [exact H|]. cbn [app] in H. inversion H; subst. apply IH. assumption. Qed.
Section Grid.
Variables (d cn : Q) (g : grid) (strokes hs vs : list shape).
Hypothesis Hd : 1 <= d.
Hypothesis Ok : grid_ok d g.
Hypothesis PS : Permutation strokes (hs ++ vs).
Hypothesis Lh : length hs = length (g_ys g).
Hypothesis Lv : length vs = length (g_xs g).
Hypothesis Rh : forall i s, nth_error hs i = Some s -> h_rule g i s.
Hypothesis Rv : forall j s, nth_error vs j = Some s -> v_rule g j s.
Hypothesis Hcn : 0 < cn.
Hypothesis Hd2 : g_width g + 2 * cn + (1 # 10) <= d.
Hypothesis Root : rooted g.
Let D1 : 0 + 1 <= d. Proof. lra. Qed.
Let Hx i j := grid_x 0 d g (Qle_refl 0) D1 Ok i j.
Let Hy i j := grid_y 0 d g (Qle_refl 0) D1 Ok i j.
Let Hxle i j := grid_xle 0 d g (Qle_refl 0) D1 Ok i j.
Let Hyle i j := grid_yle 0 d g (Qle_refl 0) D1 Ok i j.
Lemma h_box s : In s hs -> exists i, (i <= g_rows g)%nat /\ nth_error hs i = Some s /\
  sh_bbox s = rround (mkRect (gx g 0 - g_width g / 2) (gy g i - g_width g / 2) (gx g (g_right g i) + g_width g / 2) (gy g i + g_width g / 2)).
Proof.
  intros H. apply In_nth_error in H. destruct H as (i & Hi). exists i. assert (i < length hs)%nat by (apply nth_error_Some; congruence).
  destruct (grid_lens d g hs vs Ok Lh Lv) as (_ & L). assert (Hi' : (i <= g_rows g)%nat) by lia. split; [exact Hi'|]. split; [exact Hi|]. destruct (Rh i s Hi) as (c & t & u & ->). cbn [sh_bbox]. rewrite (proj1 Root i Hi'). reflexivity.
Qed.
Lemma v_box s : In s vs -> exists j, (j <= g_cols g)%nat /\ nth_error vs j = Some s /\
  sh_bbox s = rround (mkRect (gx g j - g_width g / 2) (gy g (g_top g j) - g_width g / 2) (gx g j + g_width g / 2) (gy g (g_bottom g j) + g_width g / 2)).
Proof.
  intros H. apply In_nth_error in H. destruct H as (j & Hj). exists j. assert (j < length vs)%nat by (apply nth_error_Some; congruence).
  destruct (grid_lens d g hs vs Ok Lh Lv) as (L & _). assert (Hj' : (j <= g_cols g)%nat) by lia. split; [exact Hj'|]. split; [exact Hj|]. destruct (Rv j s Hj) as (c & t & u & ->). reflexivity.
Qed.

Let Wp : 0 < g_width g. Proof. apply Ok. Qed.
Let half : g_width g / 2 == g_width g * (1 # 2). Proof. field. Qed.
Lemma all_distinct : NoDup (hs ++ vs).
Proof.
  apply NoDup_nth_error. intros a b La E. destruct (nth_error (hs ++ vs) a) as [s|] eqn:Ea; [|apply nth_error_None in Ea; lia]. symmetry in E.
  assert (Tall : forall j t, nth_error vs j = Some t -> horizontal t = false /\ sh_x0 t = gx g j /\ (j <= g_cols g)%nat).
  { intros j t Hj. destruct (v_box t (nth_error_In _ _ Hj)) as (j' & _ & _ & _). assert (j < length vs)%nat by (apply nth_error_Some; congruence). destruct (grid_lens d g hs vs Ok Lh Lv) as (L1 & _). assert (Hj' : (j <= g_cols g)%nat) by lia.
    pose proof Ok as (_ & _ & _ & _ & _ & _ & TB & _). destruct (TB j Hj') as (T1 & T2). pose proof (Hy _ _ T1 T2).
    destruct (rule_v _ _ _ _ _ (Rv j t Hj)) as (A & _); [lra|]. split; [exact A|]. split; [|exact Hj']. destruct (Rv j t Hj) as (c & ty & u & ->). reflexivity. }
  assert (Flat : forall i t, nth_error hs i = Some t -> horizontal t = true /\ sh_y0 t = gy g i /\ (i <= g_rows g)%nat).
  { intros i t Hi. assert (i < length hs)%nat by (apply nth_error_Some; congruence). destruct (grid_lens d g hs vs Ok Lh Lv) as (_ & L1). destruct (rule_h _ _ _ _ _ (Rh i t Hi)) as (A & _). split; [exact A|]. split; [|lia]. destruct (Rh i t Hi) as (c & ty & u & ->). reflexivity. }
  destruct (lt_dec a (length hs)) as [La'|La']; destruct (lt_dec b (length hs)) as [Lb|Lb].
  - rewrite nth_error_app1 in Ea, E by assumption. destruct (Flat a s Ea) as (_ & F1 & F2). destruct (Flat b s E) as (_ & G1 & G2).
    destruct (lt_eq_lt_dec a b) as [[X|X]|X]; [|exact X|]; exfalso; pose proof (Hy _ _ X ltac:(lia)); rewrite F1 in G1; rewrite G1 in *; lra.
  - rewrite nth_error_app1 in Ea by assumption. rewrite nth_error_app2 in E by lia. destruct (Flat a s Ea). destruct (Tall _ s E). congruence.
  - rewrite nth_error_app2 in Ea by lia. rewrite nth_error_app1 in E by lia. destruct (Flat b s E). destruct (Tall _ s Ea). congruence.
  - rewrite nth_error_app2 in Ea, E by lia. destruct (Tall _ s Ea) as (_ & F1 & F2). destruct (Tall _ s E) as (_ & G1 & G2).
    destruct (lt_eq_lt_dec (a - length hs) (b - length hs)) as [[X|X]|X]; [|lia|]; exfalso; pose proof (Hx _ _ X ltac:(lia)); rewrite F1 in G1; rewrite G1 in *; lra.
Qed.
Lemma strokes_distinct : NoDup strokes.
Proof. eapply Permutation_NoDup; [apply Permutation_sym, PS|apply all_distinct]. Qed.
Lemma same_place p q s : nth_error strokes p = Some s -> nth_error strokes q = Some s -> p = q.
Proof.
  intros Hp Hq. apply (proj1 (NoDup_nth_error strokes) strokes_distinct); [apply nth_error_Some; congruence|congruence].
Qed.
Let W := map (widen cn cn) (map sh_bbox strokes).
Lemma W_at p : nth_error W p = option_map (fun s => widen cn cn (sh_bbox s)) (nth_error strokes p).
Proof. unfold W. rewrite !nth_error_map. destruct (nth_error strokes p); reflexivity. Qed.
(** Edges of the widened boxes. *)
Definition lo (x : Q) : Q := round1 (x - g_width g / 2) - cn.
Definition hi (x : Q) : Q := round1 (x + g_width g / 2) + cn.
Lemma lo_lt x y : x + d < y -> lo x < lo y /\ hi x < lo y /\ hi x < hi y.
Proof.
  intros H. unfold lo, hi. pose proof (round1_bound (x - g_width g / 2)). pose proof (round1_bound (y - g_width g / 2)). pose proof (round1_bound (x + g_width g / 2)). pose proof (round1_bound (y + g_width g / 2)).
  pose proof half as HF. set (u := g_width g / 2) in *. repeat split; lra.
Qed.
Lemma lo_hi x : lo x < hi x.
Proof. unfold lo, hi. assert (round1 (x - g_width g / 2) <= round1 (x + g_width g / 2)) by (apply round_p_mono; pose proof half as HF; set (u := g_width g / 2) in *; lra). lra. Qed.
Lemma lo_le x y : x <= y -> lo x <= lo y /\ hi x <= hi y.
Proof. intros H. unfold lo, hi. assert (round1 (x - g_width g / 2) <= round1 (y - g_width g / 2)) by (apply round_p_mono; lra). assert (round1 (x + g_width g / 2) <= round1 (y + g_width g / 2)) by (apply round_p_mono; lra). split; lra. Qed.
Definition hbox (i : nat) : rect := mkRect (lo (gx g 0)) (lo (gy g i)) (hi (gx g (g_right g i))) (hi (gy g i)).
Definition vbox (j : nat) : rect := mkRect (lo (gx g j)) (lo (gy g (g_top g j))) (hi (gx g j)) (hi (gy g (g_bottom g j))).
Lemma widen_h s : In s hs -> exists i, (i <= g_rows g)%nat /\ nth_error hs i = Some s /\ req (widen cn cn (sh_bbox s)) (hbox i).
Proof. intros H. destruct (h_box s H) as (i & Hi & Ei & ->). exists i. split; [exact Hi|]. split; [exact Ei|]. unfold widen, rplus, hbox, lo, hi, rround, req. cbn [rx0 ry0 rx1 ry1]. repeat split; lra. Qed.
Lemma widen_v s : In s vs -> exists j, (j <= g_cols g)%nat /\ nth_error vs j = Some s /\ req (widen cn cn (sh_bbox s)) (vbox j).
Proof. intros H. destruct (v_box s H) as (i & Hi & Ei & ->). exists i. split; [exact Hi|]. split; [exact Ei|]. unfold widen, rplus, vbox, lo, hi, rround, req. cbn [rx0 ry0 rx1 ry1]. repeat split; lra. Qed.
Lemma is_line s : In s strokes -> In s hs \/ In s vs.
Proof. intros H. apply in_app_or. eapply Permutation_in; [exact PS|exact H]. Qed.
Lemma right_col i : (i <= g_rows g)%nat -> (0 < g_right g i)%nat /\ (g_right g i <= g_cols g)%nat.
Proof. intros Hi. pose proof Ok as (_ & _ & _ & _ & _ & LR & _). destruct (LR i Hi). lia. Qed.
Lemma leftmost p a : nth_error W p = Some a -> lo (gx g 0) <= rx0 a.
Proof.
  rewrite W_at. destruct (nth_error strokes p) as [s|] eqn:E; [|discriminate]. intros H. injection H as <-.
  destruct (is_line s (nth_error_In _ _ E)) as [H|H].
  - destruct (widen_h s H) as (i & _ & _ & (-> & _)). apply Qle_refl.
  - destruct (widen_v s H) as (j & Hj & _ & (-> & _)). cbn [vbox rx0]. exact (proj1 (lo_le _ _ (Hxle 0%nat j ltac:(lia) Hj))).
Qed.
Lemma clear_v p s j : nth_error strokes p = Some s -> nth_error vs j = Some s -> (1 <= j <= g_cols g)%nat ->
  clear_left W p (widen cn cn (sh_bbox s)).
Proof.
  intros Hp Hj Lj. left. intros q b Nq Hb. rewrite W_at in Hb. destruct (nth_error strokes q) as [t|] eqn:Eq; [|discriminate]. injection Hb as <-.
  destruct (widen_v s (nth_error_In _ _ Hj)) as (j' & Lj' & Hj' & (E0 & _)).
  assert (Ej : j' = j). { apply (proj1 (NoDup_nth_error vs)); [|apply nth_error_Some; congruence|congruence]. pose proof all_distinct as ND. apply NoDup_app_r in ND. exact ND. }
  subst j'. cbn [vbox rx0] in E0.
  destruct (is_line t (nth_error_In _ _ Eq)) as [H|H].
  - destruct (widen_h t H) as (i & Hi & _ & (F0 & _ & F1 & _)). cbn [hbox rx0 rx1] in F0, F1. destruct (right_col i Hi) as (R1 & R2). pose proof (lo_lt _ _ (Hx 0%nat j ltac:(lia) ltac:(lia))) as (X1 & X2 & X3).
    split; [lra|]. destruct (lt_dec (g_right g i) j) as [L|L].
    + pose proof (lo_lt _ _ (Hx _ _ L ltac:(lia))). lra.
    + pose proof (lo_le _ _ (Hxle j (g_right g i) ltac:(lia) ltac:(lia))). pose proof (lo_hi (gx g j)). lra.
  - destruct (widen_v t H) as (k & Hk & Ek & (F0 & _ & F1 & _)). cbn [vbox rx0 rx1] in F0, F1. destruct (lt_eq_lt_dec j k) as [[L|L]|L].
    + pose proof (lo_lt _ _ (Hx _ _ L ltac:(lia))). pose proof (lo_hi (gx g j)). pose proof (lo_hi (gx g k)). lra.
    + exfalso. apply Nq. subst k. assert (t = s) by congruence. subst t. eapply same_place; eassumption.
    + pose proof (lo_lt _ _ (Hx _ _ L ltac:(lia))). pose proof (lo_hi (gx g j)). pose proof (lo_hi (gx g k)). lra.
Qed.
Lemma meet i j : (i <= g_rows g)%nat -> (j <= g_cols g)%nat -> (g_top g j <= i <= g_bottom g j)%nat -> (j <= g_right g i)%nat -> overlap_open (hbox i) (vbox j).
Proof.
  intros Hi Hj Ti Rj. destruct (right_col i Hi) as (_ & R2). pose proof Ok as (_ & _ & _ & _ & _ & _ & TB & _). destruct (TB j Hj) as (T1 & T2).
  pose proof (lo_le _ _ (Hxle 0 j ltac:(lia) Hj)). pose proof (lo_le _ _ (Hxle j (g_right g i) Rj R2)). pose proof (lo_le _ _ (Hyle (g_top g j) i ltac:(lia) Hi)). pose proof (lo_le _ _ (Hyle i (g_bottom g j) ltac:(lia) T2)).
  pose proof (lo_hi (gx g j)). pose proof (lo_hi (gy g i)). unfold overlap_open, hbox, vbox. cbn [rx0 ry0 rx1 ry1]. repeat split; lra.
Qed.
Lemma open_req a b a' b' : req a a' -> req b b' -> overlap_open a' b' -> overlap_open a b.
Proof. intros (A1 & A2 & A3 & A4) (B1 & B2 & B3 & B4) (C1 & C2 & C3 & C4). unfold overlap_open. repeat split; lra. Qed.
Lemma open_sym a b : overlap_open a b -> overlap_open b a.
Proof. intros (A & B & C & D). repeat split; assumption. Qed.
Lemma linked_root z s0 : nth_error strokes z = Some s0 -> nth_error vs 0 = Some s0 -> forall p s, nth_error strokes p = Some s ->
  clos_refl_trans nat (clearly_overlapping W) z p.
Proof.
  intros Hz H0. destruct (widen_v s0 (nth_error_In _ _ H0)) as (j0 & _ & E0 & Q0).
  assert (j0 = 0%nat). { apply (proj1 (NoDup_nth_error vs)); [|apply nth_error_Some; congruence|congruence]. pose proof all_distinct as ND. apply NoDup_app_r in ND. exact ND. } subst j0.
  pose proof Ok as (C1 & C2 & _ & _ & _ & _ & TB & _ & _ & _ & _ & T0 & B0 & _).
  assert (HH : forall p s, nth_error strokes p = Some s -> In s hs -> clos_refl_trans nat (clearly_overlapping W) z p).
  { intros p s Hp Hs. destruct (widen_h s Hs) as (i & Hi & Ei & Qi). apply rt_step.
    exists (widen cn cn (sh_bbox s0)), (widen cn cn (sh_bbox s)). rewrite !W_at, Hz, Hp. split; [reflexivity|]. split; [reflexivity|]. split.
    - apply open_sym. eapply open_req; [exact Qi|exact Q0|]. apply meet; [exact Hi|lia|rewrite T0, B0; lia|lia].
    - assert (Lm : forall a, rx0 a == lo (gx g 0) -> forall b, In b W -> rx0 a <= rx0 b) by (intros a Ea b Hb; apply In_nth_error in Hb; destruct Hb as (q & Hq); rewrite Ea; apply (leftmost q), Hq).
      split; intros _; right; apply Lm; [apply Q0|apply Qi]. }
  intros p s Hp. destruct (is_line s (nth_error_In _ _ Hp)) as [Hs|Hs]; [apply (HH p s Hp Hs)|].
  destruct (widen_v s Hs) as (j & Hj & Ej & Qj). destruct (Nat.eq_dec j 0) as [->|Nj].
  { assert (s = s0) by congruence. subst s. rewrite (same_place z p s0 Hz Hp). apply rt_refl. }
  destruct (proj2 Root j Hj) as (i & Hi & Ti & Ri). destruct (h_at d g hs vs Ok Lh Lv i Hi) as (t & Ht).
  assert (It : In t strokes) by (eapply Permutation_in; [apply Permutation_sym, PS|]; apply in_or_app; left; eapply nth_error_In; exact Ht).
  apply In_nth_error in It. destruct It as (q & Hq). apply rt_trans with q; [apply (HH q t Hq), (nth_error_In _ _ Ht)|]. apply rt_step.
  destruct (widen_h t (nth_error_In _ _ Ht)) as (i' & Hi' & Ei' & Qi).
  assert (i' = i). { apply (proj1 (NoDup_nth_error hs)); [|apply nth_error_Some; congruence|congruence]. pose proof all_distinct as ND. apply NoDup_app_l in ND. exact ND. } subst i'.
  exists (widen cn cn (sh_bbox t)), (widen cn cn (sh_bbox s)). rewrite !W_at, Hq, Hp. split; [reflexivity|]. split; [reflexivity|]. split; [eapply open_req; [exact Qi|exact Qj|apply meet; assumption]|]. split.
  - intros L. exfalso. destruct Qi as (X1 & _). destruct Qj as (Y1 & _). rewrite X1, Y1 in L. cbn [hbox vbox rx0] in L. pose proof (lo_lt _ _ (Hx 0%nat j ltac:(lia) Hj)). lra.
  - intros _. apply (clear_v p s j Hp Ej). lia.
Qed.
Lemma W_proper r : In r W -> proper r.
Proof.
  intros H. apply In_nth_error in H. destruct H as (p & Hp). rewrite W_at in Hp. destruct (nth_error strokes p) as [s|] eqn:E; [|discriminate]. injection Hp as <-.
  pose proof Ok as (_ & _ & _ & _ & _ & _ & TB & _).
  destruct (is_line s (nth_error_In _ _ E)) as [Hs|Hs].
  - destruct (widen_h s Hs) as (i & Hi & _ & (E0 & E1 & E2 & E3)). unfold proper. rewrite E0, E1, E2, E3. cbn [hbox rx0 ry0 rx1 ry1]. destruct (right_col i Hi). pose proof (lo_le _ _ (Hxle 0 (g_right g i) ltac:(lia) ltac:(lia))). pose proof (lo_hi (gx g 0)). pose proof (lo_hi (gy g i)). split; lra.
  - destruct (widen_v s Hs) as (j & Hj & _ & (E0 & E1 & E2 & E3)). unfold proper. rewrite E0, E1, E2, E3. cbn [vbox rx0 ry0 rx1 ry1]. destruct (TB j Hj). pose proof (lo_le _ _ (Hyle (g_top g j) (g_bottom g j) ltac:(lia) ltac:(lia))). pose proof (lo_hi (gx g j)). pose proof (lo_hi (gy g (g_top g j))). split; lra.
Qed.
(** One group. *)
Lemma one_group order : (forall l, Permutation l (order l)) ->
  exists grp, group_by_connectivity order cn cn (map sh_bbox strokes) = Some [grp] /\ Permutation grp (seq 0 (length strokes)).
Proof.
  intros Ho. destruct (groups_general order Ho cn cn (map sh_bbox strokes)) as (gs & G1 & G2 & G3 & G4).
  { intros r Hr. destruct (W_proper r Hr). lra. }
  destruct (connectivity_complete order cn cn (map sh_bbox strokes) Ho W_proper) as (gs' & G1' & Cc). rewrite G1 in G1'. injection G1' as <-.
  destruct (v_at d g hs vs Ok Lh Lv 0 ltac:(lia)) as (s0 & H0).
  assert (Iz : In s0 strokes) by (eapply Permutation_in; [apply Permutation_sym, PS|]; apply in_or_app; right; eapply nth_error_In; exact H0).
  apply In_nth_error in Iz. destruct Iz as (z & Hz).
  assert (Lz : (z < length (map sh_bbox strokes))%nat) by (rewrite map_length; apply nth_error_Some; congruence).
  assert (NE : forall grp, In grp gs -> grp <> []).
  { apply (groups_nonempty order Ho cn cn (map sh_bbox strokes)); [|exact G1]. intros r Hr. destruct (W_proper r Hr). lra. }
  assert (All : forall grp i, In grp gs -> In i grp -> In z grp).
  { intros grp i Hg Hi. assert (Li : (i < length (map sh_bbox strokes))%nat) by (apply G3; apply in_concat; exists grp; auto).
    rewrite map_length in Li. destruct (nth_error strokes i) as [s|] eqn:Es; [|apply nth_error_None in Es; lia].
    destruct (Cc z i Lz (linked_root z s0 Hz H0 i s Es)) as (grp' & Hg' & Hz' & Hi').
    apply (G4 grp i z Hg Hi). apply (G4 grp' i z Hg' Hi'). exact Hz'. }
  assert (One : exists grp, gs = [grp]).
  { destruct gs as [|a [|b t]].
    - exfalso. apply G3 in Lz. destruct Lz.
    - exists a. reflexivity.
    - exfalso. assert (Za : In z a) by (destruct a as [|x a']; [exfalso; apply (NE [] (or_introl eq_refl)); reflexivity|apply (All _ x); left; reflexivity]).
      assert (Zb : In z b) by (destruct b as [|x b']; [exfalso; apply (NE [] (or_intror (or_introl eq_refl))); reflexivity|apply (All _ x); [right; left; reflexivity|left; reflexivity]]).
      cbn [concat] in G2. apply in_split in Za. destruct Za as (a1 & a2 & ->). rewrite <- app_assoc in G2. cbn [app] in G2. apply NoDup_remove_2 in G2. apply G2.
      apply in_or_app. right. apply in_or_app. right. apply in_or_app. left. exact Zb. }
  destruct One as (grp & ->). exists grp. split; [exact G1|]. cbn [concat] in G2, G3. rewrite app_nil_r in G2, G3.
  apply NoDup_Permutation; [exact G2|apply seq_NoDup|]. intros i. rewrite <- G3, map_length, in_seq. lia.
Qed.
End Grid.
