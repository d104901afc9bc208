From Verif Require Import GeomModel GeomSpec GeomProof ShapeModel TableModel TableProof StoreProof StoreProof3 GridSpec GridProof GridProof2 GridProof3.
From Verif Require Import LayoutSpec AssignProof FlowProof2 LayoutProof2 LayoutProof3.
From Verif Require TableProps GraphProof StoreSpec.
From Coq Require Import List Lia Permutation Lqa Sorted Relations.
Import ListNotations.
Open Scope Q_scope.

(* ------------------------------------------------------------------ *)
(** * Union of boxes, some of which are missing *)
Definition good (r : rect) : Prop := box r \/ req r rect0.
Lemma zero_empty r : req r rect0 -> rect_empty r = true.
Proof. intros (A & B & C & D). unfold rect_empty. cbn [rect0 rx0 ry0 rx1 ry1] in *. apply Bool.orb_true_iff. left. apply qeq_iff. lra. Qed.
Lemma zero_box r : req r rect0 -> ~ box r.
Proof. intros H (P & _). apply proper_nonempty in P. rewrite (zero_empty r H) in P. discriminate. Qed.
Lemma zero_union : forall a b, req a rect0 -> req b rect0 -> req (union_bbox a b) rect0.
Proof.
  intros a b Ha Hb. unfold union_bbox, runion. rewrite (zero_empty b Hb). destruct Ha as (A & B & C & D). cbn [rect0 rx0 ry0 rx1 ry1] in *.
  unfold req, rround. cbn [rect0 rx0 ry0 rx1 ry1]. rewrite (round1_same _ _ A), (round1_same _ _ B), (round1_same _ _ C), (round1_same _ _ D). repeat split; reflexivity.
Qed.
Lemma good_union a b : good a -> good b -> good (union_bbox a b) /\ (box a -> box (union_bbox a b) /\ Rect.covers (union_bbox a b) a) /\ (box b -> box (union_bbox a b) /\ Rect.covers (union_bbox a b) b) /\
  forall c, (box a -> Rect.covers c a) -> (box b -> Rect.covers c b) -> box (union_bbox a b) -> Rect.covers c (union_bbox a b).
Proof.
  assert (Cov : forall c x y, req x y -> Rect.covers c y -> Rect.covers c x) by (intros c x y (E1 & E2 & E3 & E4) (C1 & C2 & C3 & C4); unfold Rect.covers; repeat split; lra).
  assert (Cov' : forall x y, req x y -> Rect.covers x y) by (intros x y (E1 & E2 & E3 & E4); unfold Rect.covers; repeat split; lra).
  intros [Ba|Za] [Bb|Zb].
  - destruct (union_hull a b Ba Bb) as (U1 & U2 & U3 & U4). split; [left; exact U1|]. split; [auto|]. split; [auto|]. intros c Ha Hb _. apply U4; auto.
  - assert (E : req (union_bbox a b) a) by (unfold union_bbox, runion; rewrite (zero_empty b Zb); apply rround_fixed, Ba).
    assert (B : box (union_bbox a b)) by (split; [apply (proper_req a); [apply req_sym, E|apply Ba]|apply rround_decimal]).
    split; [left; exact B|]. split; [intros _; split; [exact B|apply Cov', E]|]. split; [intros Z; destruct (zero_box b Zb Z)|]. intros c Ha _ _. apply (Cov c _ _ E), Ha, Ba.
  - assert (E : req (union_bbox a b) b) by (unfold union_bbox, runion; rewrite (proper_nonempty b (proj1 Bb)), (zero_empty a Za); apply rround_fixed, Bb).
    assert (B : box (union_bbox a b)) by (split; [apply (proper_req b); [apply req_sym, E|apply Bb]|apply rround_decimal]).
    split; [left; exact B|]. split; [intros Z; destruct (zero_box a Za Z)|]. split; [intros _; split; [exact B|apply Cov', E]|]. intros c _ Hb _. apply (Cov c _ _ E), Hb, Bb.
  - pose proof (zero_union a b Za Zb) as Z. split; [right; exact Z|]. split; [intros X; destruct (zero_box a Za X)|]. split; [intros X; destruct (zero_box b Zb X)|]. intros c _ _ X. destruct (zero_box _ Z X).
Qed.
Lemma good_fold {A} (f : A -> rect) l : forall r, good r -> (forall x, In x l -> good (f x)) -> let u := fold_left (fun r x => union_bbox r (f x)) l r in
  good u /\ (box r -> box u /\ Rect.covers u r) /\ (forall x, In x l -> box (f x) -> box u /\ Rect.covers u (f x)) /\
  forall c, (box r -> Rect.covers c r) -> (forall x, In x l -> box (f x) -> Rect.covers c (f x)) -> box u -> Rect.covers c u.
Proof.
  induction l as [|x l IH]; intros r Gr G; cbn [fold_left].
  - cbv zeta. split; [exact Gr|]. split; [intros B; split; [exact B|apply covers_refl]|]. split; [intros x []|]. auto.
  - destruct (good_union r (f x) Gr (G x (or_introl eq_refl))) as (U1 & U2 & U3 & U4).
    destruct (IH (union_bbox r (f x)) U1 (fun y Hy => G y (or_intror Hy))) as (I1 & I2 & I3 & I4). cbv zeta in *.
    split; [exact I1|]. split; [|split].
    + intros B. destruct (U2 B) as (B1 & C1). destruct (I2 B1) as (B2 & C2). split; [exact B2|exact (covers_trans' _ _ _ C2 C1)].
    + intros y [<-|Hy] B; [|apply I3; assumption]. destruct (U3 B) as (B1 & C1). destruct (I2 B1) as (B2 & C2). split; [exact B2|exact (covers_trans' _ _ _ C2 C1)].
    + intros c Hc Hl. apply I4; [|intros y Hy; apply Hl; right; exact Hy]. intros B. apply U4; [exact Hc|apply Hl; left; reflexivity|exact B].
Qed.
Lemma fold_rounded {A} (f : A -> rect) l : forall r, l <> [] -> StoreSpec.rounded (fold_left (fun r x => union_bbox r (f x)) l r).
Proof.
  destruct l as [|x l]; [congruence|]. intros r _. cbn [fold_left]. generalize (union_bbox r (f x)) (rround_rounded (runion r (f x)) : StoreSpec.rounded (union_bbox r (f x))). clear r x.
  induction l as [|x l IH]; intros r Hr; cbn [fold_left]; [exact Hr|]. apply IH, rround_rounded.
Qed.
Lemma req0 : req rect0 rect0. Proof. unfold req. repeat split; reflexivity. Qed.
Definition opt_box (c : option bcell) : rect := match c with Some c => bc_bbox c | None => rect0 end.
Lemma rows_hull (rows : list brow) : (forall r b, In r rows -> In (Some b) (br_cells r) -> box (bc_bbox b)) ->
  let u := rows_box rows in (rows <> [] -> StoreSpec.rounded u) /\ (forall r b, In r rows -> In (Some b) (br_cells r) -> box u /\ Rect.covers u (bc_bbox b)) /\
  forall c, (forall r b, In r rows -> In (Some b) (br_cells r) -> Rect.covers c (bc_bbox b)) -> box u -> Rect.covers c u.
Proof.
  intros H. cbv zeta.
  assert (Row : forall r, In r rows -> good (row_bbox (br_cells r)) /\ (forall b, In (Some b) (br_cells r) -> box (row_bbox (br_cells r)) /\ Rect.covers (row_bbox (br_cells r)) (bc_bbox b)) /\
    forall c, (forall b, In (Some b) (br_cells r) -> Rect.covers c (bc_bbox b)) -> box (row_bbox (br_cells r)) -> Rect.covers c (row_bbox (br_cells r))).
  { intros r Hr. destruct (good_fold opt_box (br_cells r) rect0 (or_intror req0)) as (I1 & _ & I3 & I4).
    - intros [b|] Hb; [left; apply (H r b Hr Hb)|right; exact req0].
    - split; [exact I1|]. split; [intros b Hb; apply (I3 (Some b) Hb), (H r b Hr Hb)|]. intros c Hc. apply I4.
      + intros Z. destruct (zero_box _ req0 Z).
      + intros [b|] Hb B; [apply Hc; exact Hb|]. destruct (zero_box _ req0 B). }
  destruct (good_fold (fun r => row_bbox (br_cells r)) rows rect0 (or_intror req0) (fun r Hr => proj1 (Row r Hr))) as (I1 & _ & I3 & I4).
  split; [apply (fold_rounded (fun r => row_bbox (br_cells r)))|]. split.
  - intros r b Hr Hb. destruct (Row r Hr) as (_ & R2 & _). destruct (R2 b Hb) as (B1 & C1). destruct (I3 r Hr B1) as (B2 & C2). split; [exact B2|exact (covers_trans' _ _ _ C2 C1)].
  - intros c Hc. apply I4.
    + intros Z. destruct (zero_box _ req0 Z).
    + intros r Hr B. destruct (Row r Hr) as (_ & _ & R3). apply R3; [intros b Hb; apply (Hc r b Hr Hb)|exact B].
Qed.

(* ------------------------------------------------------------------ *)
(** * The box of a drawn table *)
Lemma last_run (P : nat -> Prop) : (forall k, {P k} + {~ P k}) -> P 0%nat -> forall len, (1 <= len)%nat -> exists j n, (j < len)%nat /\ (0 < n)%nat /\ (j + n)%nat = len /\ P j /\ run_length P len j n.
Proof.
  intros D P0. assert (L : forall len, (1 <= len)%nat -> exists j, (j < len)%nat /\ P j /\ forall k, (j < k < len)%nat -> ~ P k).
  { induction len as [|len IH]; intros H; [lia|]. destruct (D len) as [Pl|Nl]; [exists len; split; [lia|]; split; [exact Pl|intros; lia]|].
    destruct len as [|len]; [contradiction|]. destruct (IH ltac:(lia)) as (j & A & B & C). exists j. split; [lia|]. split; [exact B|]. intros k Hk. destruct (Nat.eq_dec k (S len)) as [->|N]; [exact Nl|apply C; lia]. }
  intros len H. destruct (L len H) as (j & A & B & C). exists j, (len - j)%nat. split; [exact A|]. split; [lia|]. split; [lia|]. split; [exact B|]. right. split; [exact B|]. split; [lia|]. split; [lia|]. split; [intros k Hk; apply C; lia|lia].
Qed.
Lemma run_from (P : nat -> Prop) len : forall k, (forall k, {P k} + {~ P k}) -> P k -> (k < len)%nat -> exists n, (0 < n)%nat /\ run_length P len k n.
Proof.
  intros k D Pk Hk. assert (L : forall m, (k + S m <= len)%nat -> (forall x, (k < x < k + S m)%nat -> ~ P x) -> exists n, (0 < n)%nat /\ run_length P len k n).
  { intros m. remember (len - (k + S m))%nat as q eqn:Eq. revert m Eq. induction q as [|q IH]; intros m Eq Hm Nm.
    - exists (S m). split; [lia|]. right. split; [exact Pk|]. split; [lia|]. split; [lia|]. split; [exact Nm|lia].
    - destruct (D (k + S m)%nat) as [Y|N].
      + exists (S m). split; [lia|]. right. split; [exact Pk|]. split; [lia|]. split; [lia|]. split; [exact Nm|intros _; exact Y].
      + apply (IH (S m)); [lia|lia|]. intros x Hx. destruct (Nat.eq_dec x (k + S m)) as [->|Nx]; [exact N|apply Nm; lia]. }
  apply (L 0%nat); [lia|intros; lia].
Qed.
Lemma has_top_dec g i j : {has_top g i j} + {~ has_top g i j}.
Proof. unfold has_top. destruct (le_dec (g_left g i) j); [|right; lia]. destruct (lt_dec j (g_right g i)); [left; lia|right; lia]. Qed.
Lemma has_left_dec g i j : {has_left g i j} + {~ has_left g i j}.
Proof. unfold has_left. destruct (le_dec (g_top g j) i); [|right; lia]. destruct (lt_dec i (g_bottom g j)); [left; lia|right; lia]. Qed.
Section Box.
Variables (d : Q) (g : grid).
Hypothesis Hd : 1 <= d.
Hypothesis Ok : grid_ok d g.
Let D1 : 0 + 1 <= d. Proof. lra. Qed.
Lemma bx i j : (i < j)%nat -> (j <= g_cols g)%nat -> gx g i + d < gx g j. Proof. exact (grid_x 0 d g (Qle_refl 0) D1 Ok i j). Qed.
Lemma by_ i j : (i < j)%nat -> (j <= g_rows g)%nat -> gy g i + d < gy g j. Proof. exact (grid_y 0 d g (Qle_refl 0) D1 Ok i j). Qed.
Lemma bxle i j : (i <= j)%nat -> (j <= g_cols g)%nat -> gx g i <= gx g j. Proof. exact (grid_xle 0 d g (Qle_refl 0) D1 Ok i j). Qed.
Lemma byle i j : (i <= j)%nat -> (j <= g_rows g)%nat -> gy g i <= gy g j. Proof. exact (grid_yle 0 d g (Qle_refl 0) D1 Ok i j). Qed.
Lemma place_box i j m n : (0 < m)%nat -> (0 < n)%nat -> (i + m <= g_rows g)%nat -> (j + n <= g_cols g)%nat -> box (place g i j m n) /\ Rect.covers (frame_box g) (place g i j m n).
Proof.
  intros Hm Hn Hi Hj. split.
  - split; [|apply rround_decimal]. unfold place, rround, proper. cbn [rx0 ry0 rx1 ry1]. pose proof (bx j (j + n) ltac:(lia) Hj). pose proof (by_ i (i + m) ltac:(lia) Hi).
    pose proof (round1_bound (gx g j)). pose proof (round1_bound (gx g (j + n))). pose proof (round1_bound (gy g i)). pose proof (round1_bound (gy g (i + m))). split; lra.
  - unfold place, frame_box, rround, Rect.covers. cbn [rx0 ry0 rx1 ry1]. repeat split; apply round_p_mono; first [apply bxle|apply byle]; lia.
Qed.
Lemma in_range rows i r j b m n : rows_as_drawn g rows -> nth_error rows i = Some r -> nth_error r j = Some (Some b) -> cell_extent g i j m n -> (i < g_rows g)%nat /\ (j < g_cols g)%nat /\ (i + m <= g_rows g)%nat /\ (j + n <= g_cols g)%nat.
Proof.
  intros (L & R) Hr Hb (E1 & E2). destruct (R i r Hr) as (Lr & _). assert (Hi : (i < g_rows g)%nat) by (rewrite <- L; apply nth_error_Some; congruence). assert (Hj : (j < g_cols g)%nat) by (rewrite <- Lr; apply nth_error_Some; congruence).
  split; [exact Hi|]. split; [exact Hj|]. destruct E1 as [(_ & ->)|(_ & _ & A & _)]; destruct E2 as [(_ & ->)|(_ & _ & B & _)]; lia.
Qed.
Lemma cell_there rows i j m n : rows_as_drawn g rows -> (i < g_rows g)%nat -> (j < g_cols g)%nat -> cell_extent g i j m n -> (0 < m)%nat -> (0 < n)%nat ->
  exists r b, nth_error rows i = Some r /\ nth_error r j = Some (Some b) /\ bc_bbox b = place g i j m n /\ bc_merged b = (m, n).
Proof.
  intros (L & R) Hi Hj (E1 & E2) Hm Hn. destruct (nth_error rows i) as [r|] eqn:Er; [|apply nth_error_None in Er; lia]. destruct (R i r Er) as (Lr & C). destruct (nth_error r j) as [o|] eqn:Eo; [|apply nth_error_None in Eo; lia].
  destruct (C j o Eo) as (m' & n' & (F1 & F2) & M). pose proof (run_length_fun _ _ _ _ _ E1 F1) as <-. pose proof (run_length_fun _ _ _ _ _ E2 F2) as <-.
  destruct o as [b|]; [|lia]. exists r, b. destruct M as (_ & _ & M1 & M2). auto.
Qed.
Lemma drawn_box rows : rows_as_drawn g (map br_cells rows) -> rows_box rows = frame_box g.
Proof.
  intros RD. pose proof Ok as (C1 & C2 & _ & _ & _ & LR & TB & E1 & E2 & E3 & E4 & E5 & E6 & E7 & E8).
  assert (Cells : forall r b, In r rows -> In (Some b) (br_cells r) -> box (bc_bbox b) /\ Rect.covers (frame_box g) (bc_bbox b)).
  { intros r b Hr Hb. apply In_nth_error in Hr. destruct Hr as (i & Hi). apply In_nth_error in Hb. destruct Hb as (j & Hj).
    assert (Hi' : nth_error (map br_cells rows) i = Some (br_cells r)) by (rewrite nth_error_map, Hi; reflexivity).
    destruct (proj2 RD i _ Hi') as (_ & C). destruct (C j _ Hj) as (m & n & Ext & Pm & Pn & -> & _). destruct (in_range _ _ _ _ _ _ _ RD Hi' Hj Ext) as (A1 & A2 & A3 & A4). apply place_box; assumption. }
  destruct (rows_hull rows (fun r b Hr Hb => proj1 (Cells r b Hr Hb))) as (R1 & R2 & R3). cbv zeta in *.
  assert (T0 : forall j, (j < g_cols g)%nat -> has_top g 0 j) by (intros j Hj; unfold has_top; rewrite E1, E2; lia).
  assert (L0 : forall i, (i < g_rows g)%nat -> has_left g i 0) by (intros i Hi; unfold has_left; rewrite E5, E6; lia).
  assert (In2 : forall i r b, nth_error (map br_cells rows) i = Some r -> In (Some b) r -> exists br, In br rows /\ In (Some b) (br_cells br)).
  { intros i r b Hr Hb. rewrite nth_error_map in Hr. destruct (nth_error rows i) as [br|] eqn:Eb; [|discriminate]. cbn [option_map] in Hr. injection Hr as <-. exists br. split; [eapply nth_error_In; exact Eb|exact Hb]. }
  destruct (last_run (fun k => has_left g 0 k) (has_left_dec g 0) (L0 0%nat ltac:(lia)) (g_cols g) C1) as (j & n & Hj & Hn & Ejn & _ & Rj).
  destruct (last_run (fun k => has_top g k 0) (fun k => has_top_dec g k 0) (T0 0%nat ltac:(lia)) (g_rows g) C2) as (i & m & Hi & Hm & Eim & _ & Ri).
  pose proof run_from as Run.
  destruct (Run (fun k => has_top g k 0) (g_rows g) 0%nat (fun k => has_top_dec g k 0) (T0 0%nat ltac:(lia)) ltac:(lia)) as (m0 & Hm0 & Rm0).
  destruct (Run (fun k => has_left g 0 k) (g_cols g) 0%nat (has_left_dec g 0) (L0 0%nat ltac:(lia)) ltac:(lia)) as (n0 & Hn0 & Rn0).
  destruct (Run (fun k => has_top g k j) (g_rows g) 0%nat (fun k => has_top_dec g k j) (T0 j Hj) ltac:(lia)) as (mj & Hmj & Rmj).
  destruct (Run (fun k => has_left g i k) (g_cols g) 0%nat (has_left_dec g i) (L0 i Hi) ltac:(lia)) as (ni & Hni & Rni).
  assert (At : forall i j m n, (i < g_rows g)%nat -> (j < g_cols g)%nat -> cell_extent g i j m n -> (0 < m)%nat -> (0 < n)%nat -> box (rows_box rows) /\ Rect.covers (rows_box rows) (place g i j m n)).
  { intros i' j' m' n' A1 A2 A3 A4 A5. destruct (cell_there _ _ _ _ _ RD A1 A2 A3 A4 A5) as (r & b & B1 & B2 & B3 & _). destruct (In2 _ _ _ B1 (nth_error_In _ _ B2)) as (br & B4 & B5). rewrite <- B3. exact (R2 br b B4 B5). }
  destruct (At 0%nat 0%nat m0 n0 ltac:(lia) ltac:(lia) (conj Rm0 Rn0) Hm0 Hn0) as (Bu & (P1 & P2 & _ & _)).
  destruct (At 0%nat j mj n ltac:(lia) Hj (conj Rmj Rj) Hmj Hn) as (_ & (_ & _ & P3 & _)).
  destruct (At i 0%nat m ni Hi ltac:(lia) (conj Ri Rni) Hm Hni) as (_ & (_ & _ & _ & P4)).
  pose proof (R3 (frame_box g) (fun r b Hr Hb => proj2 (Cells r b Hr Hb)) Bu) as (Q1 & Q2 & Q3 & Q4).
  apply rounded_eq; [apply R1; intros Z; destruct RD as (L & _); rewrite Z in L; cbn [map length] in L; lia|apply rround_rounded|].
  unfold place in P1, P2, P3, P4. cbn [rround rx0 ry0 rx1 ry1] in P1, P2, P3, P4. rewrite Ejn in P3. rewrite Eim in P4.
  unfold frame_box in *. unfold req. cbn [rround rx0 ry0 rx1 ry1] in *. repeat split; apply Qle_antisym; assumption.
Qed.
End Box.
