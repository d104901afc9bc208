(** The box around stacked lines, and their rows. *)
From Verif Require Import GeomProof AssignSpec AssignProof PySort.
From Verif Require Import ParaSpec ParaProof ParaProps SpacingSpec SpacingProof SpacingProps.
From Verif Require Import PlaceSpec WholeProof WholeProof2 WholeProof4 PlaceProof.
From Coq Require Import Lia Lqa Permutation Sorting.Sorted.
Notation length := List.length.
Open Scope Q_scope.

Lemma union_sides a b : box a -> box b -> rx0 (union_bbox a b) == qmin (rx0 a) (rx0 b) /\ rx1 (union_bbox a b) == qmax (rx1 a) (rx1 b) /\
  ry0 (union_bbox a b) == qmin (ry0 a) (ry0 b) /\ ry1 (union_bbox a b) == qmax (ry1 a) (ry1 b).
Proof.
  intros (Pa & Da) (Pb & Db). pose proof (proper_valid a Pa) as Va. pose proof (proper_valid b Pb) as Vb.
  destruct (union_normal a b (conj Va Da) (conj Vb Db)) as ((E0 & E1 & E2 & E3) & _). rewrite E0, E1, E2, E3. unfold runion. rewrite (proper_nonempty a Pa), (proper_nonempty b Pb). cbn [rx0 ry0 rx1 ry1]. repeat split; reflexivity.
Qed.
Lemma extremes ls : forall r, box r -> (forall l, In l ls -> box (ln_bbox l)) ->
  let h := fold_left (fun r l => union_bbox r (ln_bbox l)) ls r in
  box h /\ ((rx0 h == rx0 r \/ exists l, In l ls /\ rx0 h == rx0 (ln_bbox l)) /\ rx0 h <= rx0 r /\ forall l, In l ls -> rx0 h <= rx0 (ln_bbox l)) /\
  ((rx1 h == rx1 r \/ exists l, In l ls /\ rx1 h == rx1 (ln_bbox l)) /\ rx1 r <= rx1 h /\ forall l, In l ls -> rx1 (ln_bbox l) <= rx1 h) /\
  ((ry0 h == ry0 r \/ exists l, In l ls /\ ry0 h == ry0 (ln_bbox l)) /\ ry0 h <= ry0 r /\ forall l, In l ls -> ry0 h <= ry0 (ln_bbox l)) /\
  ((ry1 h == ry1 r \/ exists l, In l ls /\ ry1 h == ry1 (ln_bbox l)) /\ ry1 r <= ry1 h /\ forall l, In l ls -> ry1 (ln_bbox l) <= ry1 h).
Proof.
  induction ls as [|l t IH]; intros r B H; cbn [fold_left]; cbv zeta.
  - split; [exact B|]. repeat (split; [split; [left; lra|split; [lra|intros l []]]|]). split; [left; lra|split; [lra|intros l []]].
  - assert (Bl : box (ln_bbox l)) by (apply H; left; reflexivity). destruct (union_sides r (ln_bbox l) B Bl) as (R1 & R2 & R3 & R4).
    destruct (IH (union_bbox r (ln_bbox l)) (union_box _ _ B Bl) (fun x Hx => H x (or_intror Hx))) as (I0 & (A1 & A2 & A3) & (B1 & B2 & B3) & (C1 & C2 & C3) & (D1 & D2 & D3)). cbv zeta in *.
    set (h := fold_left _ _ _) in *. clearbody h. set (u := union_bbox r (ln_bbox l)) in *. clearbody u. clear IH. split; [exact I0|].
    assert (Mn : forall a b c, c == qmin a b -> (c == a \/ c == b) /\ c <= a /\ c <= b) by (intros a b c; unfold qmin; qcases; intros E; (split; [first [left; lra|right; lra]|split; lra])).
    assert (Mx : forall a b c, c == qmax a b -> (c == a \/ c == b) /\ a <= c /\ b <= c) by (intros a b c; unfold qmax; qcases; intros E; (split; [first [left; lra|right; lra]|split; lra])).
    apply Mn in R1, R3. apply Mx in R2, R4. destruct R1 as (R1 & R1a & R1b), R2 as (R2 & R2a & R2b), R3 as (R3 & R3a & R3b), R4 as (R4 & R4a & R4b).
    split; [|split; [|split]].
    + split; [|split; [lra|intros x [<-|Hx]; [lra|apply A3, Hx]]]. destruct A1 as [A1|(x & Hx & A1)]; [|right; exists x; split; [right; exact Hx|exact A1]]. destruct R1 as [R1|R1]; [left; lra|right; exists l; split; [left; reflexivity|lra]].
    + split; [|split; [lra|intros x [<-|Hx]; [lra|apply B3, Hx]]]. destruct B1 as [B1|(x & Hx & B1)]; [|right; exists x; split; [right; exact Hx|exact B1]]. destruct R2 as [R2|R2]; [left; lra|right; exists l; split; [left; reflexivity|lra]].
    + split; [|split; [lra|intros x [<-|Hx]; [lra|apply C3, Hx]]]. destruct C1 as [C1|(x & Hx & C1)]; [|right; exists x; split; [right; exact Hx|exact C1]]. destruct R3 as [R3|R3]; [left; lra|right; exists l; split; [left; reflexivity|lra]].
    + split; [|split; [lra|intros x [<-|Hx]; [lra|apply D3, Hx]]]. destruct D1 as [D1|(x & Hx & D1)]; [|right; exists x; split; [right; exact Hx|exact D1]]. destruct R4 as [R4|R4]; [left; lra|right; exists l; split; [left; reflexivity|lra]].
Qed.
Lemma hull_sides ls : ls <> [] -> (forall l, In l ls -> box (ln_bbox l)) ->
  box (hull ls) /\ leftmost ls (rx0 (hull ls)) /\ rightmost ls (rx1 (hull ls)) /\
  ((exists l, In l ls /\ ry0 (hull ls) == ry0 (ln_bbox l)) /\ forall l, In l ls -> ry0 (hull ls) <= ry0 (ln_bbox l)) /\
  ((exists l, In l ls /\ ry1 (hull ls) == ry1 (ln_bbox l)) /\ forall l, In l ls -> ry1 (ln_bbox l) <= ry1 (hull ls)).
Proof.
  intros N H. destruct ls as [|l t]; [congruence|]. assert (Bl : box (ln_bbox l)) by (apply H; left; reflexivity).
  unfold hull. cbn [fold_left]. assert (B0 : box (union_bbox rect0 (ln_bbox l))) by (apply union_zero; [reflexivity|exact Bl]).
  destruct (union_first rect0 (ln_bbox l) eq_refl Bl) as (E0 & E1 & E2 & E3).
  destruct (extremes t (union_bbox rect0 (ln_bbox l)) B0 (fun x Hx => H x (or_intror Hx))) as (I0 & (A1 & A2 & A3) & (B1 & B2 & B3) & (C1 & C2 & C3) & (D1 & D2 & D3)). cbv zeta in *.
  split; [exact I0|]. unfold leftmost, rightmost. split; [|split; [|split]].
  - split; [destruct A1 as [K|(x & Hx & K)]; [exists l; split; [left; reflexivity|lra]|exists x; split; [right; exact Hx|exact K]]|intros x [<-|Hx]; [lra|apply A3, Hx]].
  - split; [destruct B1 as [K|(x & Hx & K)]; [exists l; split; [left; reflexivity|lra]|exists x; split; [right; exact Hx|exact K]]|intros x [<-|Hx]; [lra|apply B3, Hx]].
  - split; [destruct C1 as [K|(x & Hx & K)]; [exists l; split; [left; reflexivity|lra]|exists x; split; [right; exact Hx|exact K]]|intros x [<-|Hx]; [lra|apply C3, Hx]].
  - split; [destruct D1 as [K|(x & Hx & K)]; [exists l; split; [left; reflexivity|lra]|exists x; split; [right; exact Hx|exact K]]|intros x [<-|Hx]; [lra|apply D3, Hx]].
Qed.
(** Stacked lines: each a row; the last one ends the box. *)
Lemma rows_alone order ls : (forall l, Permutation l (order l)) -> (forall l, In l ls -> flat_line l) -> StronglySorted beneath ls ->
  GraphModel.group same_row order ls = Some (map (fun l => [l]) ls).
Proof.
  intros Ho H S. apply group_alone; [exact Ho|]. intros i j a b Hij Ha Hb. refine (proj1 (not_row a b _ _ _)); [apply H; eapply nth_error_In, Ha|apply H; eapply nth_error_In, Hb|].
  clear H. revert i j a b Hij Ha Hb. induction S as [|l t S IH F]; intros i j a b Hij Ha Hb; [destruct i; discriminate|]. destruct i as [|i]; destruct j as [|j]; try lia.
  - injection Ha as <-. cbn in Hb. rewrite Forall_forall in F. apply F. eapply nth_error_In, Hb.
  - cbn in Ha, Hb. apply (IH i j); [lia|exact Ha|exact Hb].
Qed.
Lemma rows_counted ls : (forall l, In l ls -> flat_line l) -> StronglySorted beneath ls -> ls <> [] -> row_count ls (length ls).
Proof.
  intros H S. induction S as [|l t S IH F]; intros N; [congruence|]. destruct t as [|b t]; [constructor|]. cbn [length]. apply rc_next; [|apply IH; [intros x Hx; apply H; right; exact Hx|discriminate]].
  refine (proj2 (not_row l b _ _ _)); [apply H; left; reflexivity|apply H; right; left; reflexivity|]. rewrite Forall_forall in F. apply F. left. reflexivity.
Qed.
Lemma bottom_hull ls : (forall l, In l ls -> flat_line l) -> StronglySorted beneath ls -> ls <> [] -> bottom_of ls (ry1 (hull ls)).
Proof.
  intros H S N. assert (B : forall l, In l ls -> box (ln_bbox l)) by (intros l Hl; destruct (H l Hl) as ((P & D & _) & _); split; assumption).
  destruct (hull_sides ls N B) as (_ & _ & _ & _ & (l0 & Hl & E) & M). destruct (exists_last N) as (t & l & ->). exists t, l. split; [reflexivity|].
  assert (Hin : In l (t ++ [l])) by (apply in_or_app; right; left; reflexivity). pose proof (M l Hin) as M1. apply in_app_or in Hl. destruct Hl as [Hl|[->|[]]]; [|exact E].
  assert (Bn : beneath l0 l). { clear - S Hl. induction t as [|x t IH]; [destruct Hl|]. cbn [app] in S. inversion S as [|? ? S1 S2]; subst. destruct Hl as [->|Hl]; [rewrite Forall_forall in S2; apply S2, in_or_app; right; left; reflexivity|apply IH; assumption]. }
  unfold beneath in Bn. destruct (flat_ext l (H l Hin)) as [K _]. lra.
Qed.
