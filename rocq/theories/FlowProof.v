From Verif Require Import FlowSpec GraphProof TextProof GeomProof AssignProof CleanProof BorderProof2.
From Verif Require Import GraphSpec.
From Coq Require Import List Lia Permutation Relations Sorting.Sorted.
Import ListNotations.
Open Scope Q_scope.

(** The overlap in the code is the common part. *)
Lemma overlap_together ax a b f : overlap_enough ax a b f = true <-> f * shorter ax a b <= together ax a b.
Proof.
  unfold overlap_enough, shorter, together. cbv zeta. rewrite qle_iff. 
  assert (E : hi ax a - lo ax a + (hi ax b - lo ax b) - (qmax (hi ax a) (hi ax b) - qmin (lo ax a) (lo ax b)) == qmin (hi ax a) (hi ax b) - qmax (lo ax a) (lo ax b)).
  { unfold qmin, qmax. qcases; lra. }
  rewrite E. reflexivity.
Qed.
Lemma row_mate_iff tol a b : box (ln_bbox a) -> box (ln_bbox b) -> (row_mate tol a b = true <-> abreast tol a b).
Proof.
  intros (Pa & _) (Pb & _). unfold row_mate, horizontally_align_with, vertically_align_with, abreast. cbv zeta. unfold elem_bool, ln_elem. cbn [e_bbox e_dir].
  rewrite (proper_truthy _ Pa), (proper_truthy _ Pb). cbn [negb orb]. rewrite Bool.andb_true_iff, overlap_together, Bool.negb_true_iff.
  assert (T : forall x y : bool, True) by auto. clear T. set (ax := is_horizontal (ln_dir a)).
  destruct (overlap_enough (negb ax) (ln_bbox a) (ln_bbox b) ALMOST) eqn:E.
  - apply overlap_together in E. unfold ALMOST in E. split; [intros [_ H]; discriminate|intros [_ H]; lra].
  - assert (N : ~ ALMOST * shorter (negb ax) (ln_bbox a) (ln_bbox b) <= together (negb ax) (ln_bbox a) (ln_bbox b)) by (intros H; apply overlap_together in H; congruence).
    unfold ALMOST in N. split; [intros [H _]; split; [exact H|lra]|intros [H _]; split; [exact H|reflexivity]].
Qed.
Lemma same_source_iff a b : same_source a b = true <-> exists p, from_source p a /\ from_source p b.
Proof.
  unfold same_source, from_source. destruct (ln_pid a) as [p|], (ln_pid b) as [q|].
  - rewrite Nat.eqb_eq. split; [intros ->; exists q; split; reflexivity|intros (r & E & F); congruence].
  - split; [discriminate|intros (r & E & F); discriminate].
  - split; [discriminate|intros (r & E & F); discriminate].
  - split; [discriminate|intros (r & E & F); discriminate].
Qed.

Section O.
Context (order : list nat -> list nat) (Ho : forall l, Permutation l (order l)).

(** Elements at chained positions share a group. *)
Lemma group_chain {A} (f : A -> A -> bool) l : exists gs, group f order l = Some gs /\ Permutation (concat gs) l /\
  (forall g, In g gs -> g <> []) /\
  (forall i j a b, nth_error l i = Some a -> nth_error l j = Some b -> chained f l i j -> exists g, In g gs /\ In a g /\ In b g) /\
  (forall g a b, In g gs -> In a g -> In b g -> exists i j, nth_error l i = Some a /\ nth_error l j = Some b /\ chained f l i j) /\
  (forall g, In g gs -> exists js, NoDup js /\ g = flat_map (item_at l) js /\ (forall i, In i js -> (i < length l)%nat) /\ (forall i j, In i js -> In j js -> chained f l i j)).
Proof.
  destruct (group_perm f order Ho l) as (gs & E & P). exists gs. split; [exact E|]. split; [exact P|].
  destruct (group_indexes_spec f order Ho l) as (gi & G1 & G2 & G3 & G4 & G5). unfold group in E. rewrite G1 in E. injection E as <-.
  assert (Rg : forall grp i, In grp gi -> In i grp -> (i < length l)%nat) by (intros grp i Hg Hi; apply G3; apply in_concat; exists grp; split; assumption).
  split; [|split; [|split]].
  - intros g Hg. apply in_map_iff in Hg. destruct Hg as (grp & <- & Hg). destruct grp as [|i t] eqn:Eg; [exfalso; apply (G4 _ Hg); reflexivity|].
    assert (Li := Rg _ i Hg (or_introl eq_refl)). cbn [flat_map]. unfold item_at at 1. destruct (nth_error l i) as [x|] eqn:Ex; [discriminate|]. apply nth_error_None in Ex. lia.
  - intros i j a b Ha Hb C. assert (Li : (i < length l)%nat) by (apply nth_error_Some; congruence). apply G3 in Li. apply in_concat in Li. destruct Li as (grp & Hg & Hi).
    exists (flat_map (item_at l) grp). split; [apply in_map_iff; exists grp; split; [reflexivity|exact Hg]|]. split; apply in_flat_map.
    + exists i. split; [exact Hi|]. unfold item_at. rewrite Ha. left. reflexivity.
    + exists j. split; [apply (G5 grp i j Hg Hi); exact C|]. unfold item_at. rewrite Hb. left. reflexivity.
  - intros g a b Hg Ha Hb. apply in_map_iff in Hg. destruct Hg as (grp & <- & Hg). apply in_flat_map in Ha, Hb. destruct Ha as (i & Hi & Ha). destruct Hb as (j & Hj & Hb).
    unfold item_at in Ha, Hb. destruct (nth_error l i) as [a'|] eqn:Ea; [|destruct Ha]. destruct Ha as [<-|[]]. destruct (nth_error l j) as [b'|] eqn:Eb; [|destruct Hb]. destruct Hb as [<-|[]].
    exists i, j. split; [exact Ea|]. split; [exact Eb|]. apply (G5 grp i j Hg Hi). exact Hj.
  - intros g Hg. apply in_map_iff in Hg. destruct Hg as (grp & <- & Hg). exists grp. split; [|split; [reflexivity|split; [intros i Hi; exact (Rg grp i Hg Hi)|intros i j Hi Hj; apply (G5 grp i j Hg Hi); exact Hj]]].
    clear -G2 Hg. induction gi as [|x t IH]; [destruct Hg|]. cbn [concat] in G2. destruct Hg as [<-|Hg].
    + clear -G2. induction x as [|y x IHx]; [constructor|]. cbn in G2. inversion G2 as [|? ? N1 N2]; subst. constructor; [intros H; apply N1; apply in_or_app; left; exact H|apply IHx; exact N2].
    + apply IH; [|exact Hg]. clear -G2. induction x as [|y x IHx]; [exact G2|]. cbn in G2. inversion G2; subst. apply IHx. assumption.
Qed.

(* ---------------- flow layout ---------------- *)
Lemma flow_total tol sep ls : exists f, is_flow_layout order tol sep ls = Some f.
Proof. unfold is_flow_layout. destruct (group_perm (row_mate tol) order Ho ls) as (gs & -> & _). eexists. reflexivity. Qed.
Lemma f_flow_total tol sep b : exists f, f_flow order tol sep b = Some f.
Proof. destruct b as [t|id bb]; cbn; [apply flow_total|eexists; reflexivity]. Qed.

(** In a flowing block, lines chained by "next to each other" come from one source. *)
Lemma flow_sound tol sep ls i j a b : is_flow_layout order tol sep ls = Some true -> nth_error ls i = Some a -> nth_error ls j = Some b ->
  chained (row_mate tol) ls i j -> i <> j -> exists p, from_source p a /\ from_source p b.
Proof.
  intros F Ha Hb C N. unfold is_flow_layout in F. destruct (group_indexes_spec (row_mate tol) order Ho ls) as (gi & G1 & G2 & G3 & G4 & G5).
  unfold group in F. rewrite G1 in F. injection F as F. rewrite forallb_forall in F.
  assert (Li : (i < length ls)%nat) by (apply nth_error_Some; congruence). apply G3 in Li. apply in_concat in Li. destruct Li as (grp & Hg & Hi).
  assert (Hj : In j grp) by (apply (G5 grp i j Hg Hi); exact C).
  specialize (F (flat_map (item_at ls) grp) ltac:(apply in_map_iff; exists grp; split; [reflexivity|exact Hg])).
  assert (Ia : In a (flat_map (item_at ls) grp)) by (apply in_flat_map; exists i; split; [exact Hi|unfold item_at; rewrite Ha; left; reflexivity]).
  assert (Ib : In b (flat_map (item_at ls) grp)) by (apply in_flat_map; exists j; split; [exact Hj|unfold item_at; rewrite Hb; left; reflexivity]).
  assert (L : (2 <= length (flat_map (item_at ls) grp))%nat).
  { assert (E : length (flat_map (item_at ls) grp) = length grp).
    { assert (R : forall k, In k grp -> (k < length ls)%nat) by (intros k Hk; apply G3; apply in_concat; exists grp; split; assumption).
      clear -R. induction grp as [|k t IH]; [reflexivity|]. cbn [flat_map length]. rewrite app_length, IH by (intros x Hx; apply R; right; exact Hx).
      unfold item_at. assert (Rk := R k (or_introl eq_refl)). destruct (nth_error ls k) eqn:E; [reflexivity|]. apply nth_error_None in E. lia. }
    rewrite E. destruct grp as [|x [|y t]]; [destruct Hi| |cbn; lia]. destruct Hi as [->|[]], Hj as [->|[]]. congruence. }
  destruct (flat_map (item_at ls) grp) as [|l0 [|l1 t]] eqn:Eg; [cbn in L; lia|cbn in L; lia|]. cbn [row_flows] in F.
  apply Bool.andb_true_iff in F. destruct F as [F _]. apply Bool.andb_true_iff in F. destruct F as [F _]. rewrite forallb_forall in F.
  destruct (proj1 (same_source_iff _ _) (F a Ia)) as (p & P1 & P2). destruct (proj1 (same_source_iff _ _) (F b Ib)) as (q & Q1 & Q2).
  unfold from_source in *. rewrite P2 in Q2. injection Q2 as ->. exists q. split; assumption.
Qed.
(** Lines of which no two are next to each other flow. *)
Lemma flow_plain tol sep ls : (forall a b, earlier ls a b -> row_mate tol a b = false) -> is_flow_layout order tol sep ls = Some true.
Proof.
  intros H. unfold is_flow_layout. destruct (group_indexes_spec (row_mate tol) order Ho ls) as (gi & G1 & G2 & G3 & G4 & G5).
  unfold group. rewrite G1. f_equal. apply forallb_forall. intros g Hg. apply in_map_iff in Hg. destruct Hg as (grp & <- & Hg).
  assert (Np : forall i j, ~ pair_holds (row_mate tol) ls i j).
  { assert (K : forall i j a b, (i < j)%nat -> nth_error ls i = Some a -> nth_error ls j = Some b -> row_mate tol a b = false).
    { intros i j a b L Ha Hb. apply H. destruct (nth_error_split _ _ Ha) as (x & r & -> & Lx).
      rewrite nth_error_app2 in Hb by lia. replace (j - length x)%nat with (S (j - length x - 1)) in Hb by lia. cbn in Hb.
      destruct (nth_error_split _ _ Hb) as (y & z & -> & _). exists x, y, z. reflexivity. }
    intros i j [(L & a & b & Ha & Hb & E)|(L & a & b & Ha & Hb & E)]; rewrite (K _ _ _ _ L Ha Hb) in E; discriminate. }
  assert (Ch : forall i j, chained (row_mate tol) ls i j -> i = j) by (induction 1; [exfalso; eapply Np; eassumption|reflexivity|congruence]).
  assert (Lg : (length grp <= 1)%nat).
  { destruct grp as [|x [|y t]]; cbn; try lia. exfalso. assert (E : x = y) by (apply Ch, (G5 (x :: y :: t) x y Hg (or_introl eq_refl)); right; left; reflexivity). subst y.
    clear -G2 Hg. induction gi as [|z gi IH]; [destruct Hg|]. cbn [concat] in G2. destruct Hg as [->|Hg].
    - cbn in G2. inversion G2 as [|? ? N _]; subst. apply N. left. reflexivity.
    - apply IH; [|exact Hg]. clear -G2. induction z as [|w z IHz]; [exact G2|]. cbn in G2. inversion G2; subst. apply IHz. assumption. }
  destruct grp as [|x [|y t]]; cbn in Lg; [reflexivity| |lia]. cbn [flat_map]. rewrite app_nil_r. unfold item_at. destruct (nth_error ls x); reflexivity.
Qed.

(* ---------------- split_back ---------------- *)
Definition flows_b (tol sep : Q) (b : fblock) : bool := match b with FText t => match is_flow_layout order tol sep (b_lines t) with Some f => f | None => false end | FTable _ _ => false end.
Lemma flows_b_iff tol sep b : flows_b tol sep b = true <-> flowing order tol sep b.
Proof.
  unfold flows_b, flowing. destruct b as [t|id bb].
  - destruct (flow_total tol sep (b_lines t)) as (f & E). rewrite E. split; [intros ->; exists t; split; [reflexivity|exact E]|intros (t' & Et & F)]. injection Et as <-. congruence.
  - split; [discriminate|intros (t & E & _); discriminate].
Qed.
Lemma loose_iff tol sep b : f_flow order tol sep b = Some false <-> loose order tol sep b.
Proof.
  unfold loose. destruct b as [t|id bb]; cbn [f_flow]; [split; [intros E; exists t; split; [reflexivity|exact E]|intros (t' & E & F); injection E as <-; exact F]|].
  split; [discriminate|intros (t & E & _); discriminate].
Qed.
Lemma part_spec tol sep bs : part_flow order tol sep bs =
  Some (filter (fun b => negb (flows_b tol sep b)) bs, flat_map (fun b => filter ln_bool (f_lines b)) (filter (flows_b tol sep) bs)).
Proof.
  induction bs as [|b t IH]; [reflexivity|]. cbn [part_flow filter]. rewrite IH. destruct b as [x|id bb]; cbn [f_flow flows_b].
  - destruct (flow_total tol sep (b_lines x)) as (f & ->). destruct f; reflexivity.
  - reflexivity.
Qed.
End O.
