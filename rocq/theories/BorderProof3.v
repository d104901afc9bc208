(** Columns of a stream table do not overlap. *)
From Verif Require Export BorderModel BorderSpec BorderProof BorderProof2 TableProof PyNum Rect GeomModel GraphModel GraphSpec GraphProof.
From Coq Require Import Relations Lqa Lia Permutation Sorting.Sorted.
Open Scope Q_scope.

Definition good_box (e : elem) : Prop := proper (e_bbox e) /\ rect_decimal (e_bbox e).
Definition left_of (g h : list elem) : Prop := forall a b, In a g -> In b h -> rx1 (e_bbox a) < rx0 (e_bbox b).
Lemma proper_elem_bool e : proper (e_bbox e) -> elem_bool e = true.
Proof.
  intros (X & Y). unfold elem_bool, rect_bool. destruct (qeq_spec (rx0 (e_bbox e)) 0); cbn; try reflexivity.
  destruct (qeq_spec (ry0 (e_bbox e)) 0); cbn; try reflexivity.
  destruct (qeq_spec (rx1 (e_bbox e)) 0); cbn; try reflexivity. exfalso. lra.
Qed.
Lemma align_iff a b : good_box a -> good_box b ->
  (vertically_align_with a b 0 false = true <-> rx0 (e_bbox a) <= rx1 (e_bbox b) /\ rx0 (e_bbox b) <= rx1 (e_bbox a)).
Proof.
  intros ((A1 & A2) & _) ((B1 & B2) & _). unfold vertically_align_with.
  rewrite !proper_elem_bool by (split; assumption). cbn [orb negb]. unfold overlap_enough, lo, hi.
  rewrite qle_iff. unfold qmax, qmin. qcases; split; intros; try split; lra.
Qed.
Inductive pairwise {A} (R : A -> A -> Prop) : list A -> Prop :=
| pw_nil : pairwise R []
| pw_cons x l : (forall y, In y l -> R x y) -> pairwise R l -> pairwise R (x :: l).
Lemma pairwise_perm {A} (R : A -> A -> Prop) : (forall a b, R a b -> R b a) -> forall l l', Permutation l l' -> pairwise R l -> pairwise R l'.
Proof.
  intros Sy. induction 1 as [|x l l' P IH|x y l|l l' l'' P1 IH1 P2 IH2]; intros D.
  - constructor.
  - inversion D as [|? ? H1 H2]; subst. constructor; [|apply IH; exact H2]. intros z Hz. apply H1. eapply Permutation_in; [apply Permutation_sym; exact P|exact Hz].
  - inversion D as [|? ? H1 H2]; subst. inversion H2 as [|? ? H3 H4]; subst. constructor.
    + intros z [<-|Hz]; [apply Sy, H1; left; reflexivity|apply H3; exact Hz].
    + constructor; [|exact H4]. intros z Hz. apply H1. right. exact Hz.
  - auto.
Qed.
Lemma pairwise_disjoint {B} (R : list nat -> list nat -> Prop) (S : B -> B -> Prop) (h : list nat -> B) : forall gi, NoDup (concat gi) ->
  (forall g1 g2, In g1 gi -> In g2 gi -> (forall i, In i g1 -> ~ In i g2) -> S (h g1) (h g2)) -> pairwise S (map h gi).
Proof.
  induction gi as [|g t IH]; intros N H; cbn [map]; constructor.
  - intros y Iy. apply in_map_iff in Iy. destruct Iy as (g2 & <- & I2). apply H; [left; reflexivity|right; exact I2|].
    intros i I1 I3. cbn [concat] in N. clear - N I1 I2 I3. induction g as [|x g IH]; [destruct I1|]. cbn [app] in N. inversion N as [|? ? N1 N2]; subst.
    destruct I1 as [->|I1]; [|apply IH; assumption]. apply N1. apply in_or_app. right. apply in_concat. exists g2. split; assumption.
  - apply IH; [cbn [concat] in N; clear - N; induction g as [|x g IH]; [exact N|inversion N; subst; apply IH; assumption]|].
    intros g1 g2 I1 I2. apply H; right; assumption.
Qed.
Section Cols.
Variable order : list nat -> list nat.
Hypothesis Ho : forall l, Permutation l (order l).
Let f (a b : elem) := vertically_align_with a b 0 false.
Variable l : list elem.
Hypothesis Hl : forall e, In e l -> good_box e.
Lemma linked_overlap i j a b : pair_holds f l i j -> nth_error l i = Some a -> nth_error l j = Some b ->
  rx0 (e_bbox a) <= rx1 (e_bbox b) /\ rx0 (e_bbox b) <= rx1 (e_bbox a).
Proof.
  intros H Ea Eb. pose proof (Hl a (nth_error_In _ _ Ea)) as Ga. pose proof (Hl b (nth_error_In _ _ Eb)) as Gb.
  destruct H as [(_ & x & y & X & Y & F)|(_ & x & y & X & Y & F)]; rewrite Ea in *; rewrite Eb in *; injection X as <-; injection Y as <-;
    apply align_iff in F; try assumption; tauto.
Qed.
Lemma unlinked_apart i j a b : i <> j -> ~ chained f l i j -> nth_error l i = Some a -> nth_error l j = Some b ->
  rx1 (e_bbox a) < rx0 (e_bbox b) \/ rx1 (e_bbox b) < rx0 (e_bbox a).
Proof.
  intros N H Ea Eb. pose proof (Hl a (nth_error_In _ _ Ea)) as Ga. pose proof (Hl b (nth_error_In _ _ Eb)) as Gb.
  destruct (Qlt_le_dec (rx1 (e_bbox a)) (rx0 (e_bbox b))) as [|L1]; [left; assumption|].
  destruct (Qlt_le_dec (rx1 (e_bbox b)) (rx0 (e_bbox a))) as [|L2]; [right; assumption|]. exfalso. apply H. apply rt_step.
  destruct (Nat.lt_gt_cases i j) as [Z _]. destruct (Z N) as [K|K]; [left|right]; (split; [exact K|]); [exists a, b|exists b, a]; (split; [assumption|split; [assumption|]]); apply align_iff; try assumption; split; assumption.
Qed.
Lemma chained_sym i j : chained f l i j -> chained f l j i.
Proof.
  intros H. induction H as [x y H|x|x y z _ IH1 _ IH2]; [apply rt_step|apply rt_refl|eapply rt_trans; eassumption].
  destruct H as [H|H]; [right|left]; exact H.
Qed.
Lemma pair_some i j : pair_holds f l i j -> exists a b, nth_error l i = Some a /\ nth_error l j = Some b.
Proof. intros [(_ & a & b & A & B & _)|(_ & a & b & A & B & _)]; eauto. Qed.
(** All members of a chain lie on the same side of an element outside it. *)
Lemma chain_same_side j b : nth_error l j = Some b -> forall i i', chained f l i i' -> ~ chained f l i j ->
  forall a a', nth_error l i = Some a -> nth_error l i' = Some a' ->
  (rx1 (e_bbox a) < rx0 (e_bbox b) -> rx1 (e_bbox a') < rx0 (e_bbox b)) /\ (rx1 (e_bbox b) < rx0 (e_bbox a) -> rx1 (e_bbox b) < rx0 (e_bbox a')).
Proof.
  intros Ej i i' H. apply clos_rt_rt1n in H. induction H as [x|x y z H1 H2 IH]; intros N a a' Ea Ea'.
  - rewrite Ea in Ea'. injection Ea' as <-. tauto.
  - assert (C : chained f l x y) by (apply rt_step; exact H1).
    assert (Ny : ~ chained f l y j) by (intros K; apply N; eapply rt_trans; eassumption).
    destruct (pair_some _ _ H1) as (a0 & c & E0 & Ec). rewrite Ea in E0. injection E0 as <-.
    destruct (IH Ny c a' Ec Ea') as [I1 I2].
    pose proof (linked_overlap _ _ _ _ H1 Ea Ec) as O.
    assert (Nyj : y <> j) by (intros ->; apply Ny, rt_refl).
    pose proof (unlinked_apart y j c b Nyj Ny Ec Ej) as S.
    destruct (Hl c (nth_error_In _ _ Ec)) as ((Pc & _) & _). destruct (Hl b (nth_error_In _ _ Ej)) as ((Pb & _) & _). destruct (Hl a (nth_error_In _ _ Ea)) as ((Pa & _) & _).
    split; intros K; [apply I1|apply I2]; destruct S; try lra.
Qed.
Definition apart (g h : list elem) : Prop := left_of g h \/ left_of h g.
Lemma groups_apart : pairwise apart (groups_of order f l).
Proof.
  unfold groups_of, group. destruct (group_indexes_spec f order Ho l) as (gi & E & ND & Rg & NE & Cl). rewrite E.
  apply (pairwise_disjoint (fun _ _ => True)); [exact ND|]. intros g1 g2 I1 I2 D.
  assert (X : forall i j, In i g1 -> In j g2 -> ~ chained f l i j).
  { intros i j Ii Ij K. apply (D j); [|exact Ij]. apply (Cl g1 i j I1 Ii). exact K. }
  assert (Ex : forall g i, In g gi -> In i g -> exists a, nth_error l i = Some a).
  { intros g i Ig Ii. assert (L : (i < length l)%nat) by (apply Rg; apply in_concat; exists g; split; assumption).
    destruct (nth_error l i) eqn:En; [eauto|]. apply nth_error_None in En. lia. }
  destruct g1 as [|i0 t1]; [left; intros a b []|]. destruct g2 as [|j0 t2]; [left; intros a b _ []|].
  set (g1 := i0 :: t1) in *. set (g2 := j0 :: t2) in *.
  assert (Ii0 : In i0 g1) by (left; reflexivity). assert (Ij0 : In j0 g2) by (left; reflexivity).
  destruct (Ex g1 i0 I1 Ii0) as (a0 & Ea0). destruct (Ex g2 j0 I2 Ij0) as (b0 & Eb0).
  assert (It : forall g e, In e (flat_map (item_at l) g) -> exists i, In i g /\ nth_error l i = Some e).
  { intros g e K. apply in_flat_map in K. destruct K as (i & Ii & K). unfold item_at in K. destruct (nth_error l i) eqn:En; [|destruct K]. destruct K as [<-|[]]. eauto. }
  assert (N0 : ~ chained f l i0 j0) by (apply X; assumption).
  assert (Nij : i0 <> j0) by (intros ->; apply N0, rt_refl).
  assert (Mv : forall i j a b, In i g1 -> In j g2 -> nth_error l i = Some a -> nth_error l j = Some b ->
     (rx1 (e_bbox a0) < rx0 (e_bbox b0) -> rx1 (e_bbox a) < rx0 (e_bbox b)) /\ (rx1 (e_bbox b0) < rx0 (e_bbox a0) -> rx1 (e_bbox b) < rx0 (e_bbox a))).
  { intros i j a b Ii Ij Ea Eb.
    assert (C1 : chained f l i0 i) by (apply (Cl g1 i0 i I1 Ii0); exact Ii).
    assert (C2 : chained f l j0 j) by (apply (Cl g2 j0 j I2 Ij0); exact Ij).
    destruct (chain_same_side j0 b0 Eb0 i0 i C1 N0 a0 a Ea0 Ea) as [S1 S2].
    assert (N1 : ~ chained f l j0 i) by (intros K; apply (X i j0 Ii Ij0); apply chained_sym; exact K).
    destruct (chain_same_side i a Ea j0 j C2 N1 b0 b Eb0 Eb) as [S3 S4]. split; auto. }
  destruct (unlinked_apart i0 j0 a0 b0 Nij N0 Ea0 Eb0) as [S|S]; [left|right]; intros a b Ia Ib; apply It in Ia; apply It in Ib; destruct Ia as (i & Ii & Ea); destruct Ib as (j & Ij & Eb).
  - destruct (Mv i j a b Ii Ij Ea Eb) as [M _]. apply M. exact S.
  - destruct (Mv j i b a Ij Ii Eb Ea) as [_ M]. apply M. exact S.
Qed.
Lemma coll_is_boxes g : coll_bbox g = boxes_bbox (map e_bbox g).
Proof.
  unfold coll_bbox, boxes_bbox. f_equal. generalize rect0. induction g as [|e t IH]; intros r; [reflexivity|]. cbn [map fold_left]. apply IH.
Qed.
Lemma coll_edges g : g <> [] -> (forall e, In e g -> good_box e) ->
  (forall e, In e g -> Rect.covers (coll_bbox g) (e_bbox e)) /\ (exists e, In e g /\ rx0 (coll_bbox g) == rx0 (e_bbox e)) /\ (exists e, In e g /\ rx1 (coll_bbox g) == rx1 (e_bbox e)) /\
  (exists e, In e g /\ ry0 (coll_bbox g) == ry0 (e_bbox e)) /\ (exists e, In e g /\ ry1 (coll_bbox g) == ry1 (e_bbox e)).
Proof.
  intros N H. rewrite coll_is_boxes. assert (N' : map e_bbox g <> []) by (destruct g; [congruence|discriminate]).
  assert (H' : forall b, In b (map e_bbox g) -> proper b /\ rect_decimal b) by (intros b I; apply in_map_iff in I; destruct I as (e & <- & I); apply H; exact I).
  destruct (boxes_cover _ N' H') as (_ & _ & C & _). destruct (boxes_attained _ N' H') as (A & B & D & E).
  assert (M : forall P : rect -> Prop, (exists e, In e (map e_bbox g) /\ P e) -> exists e, In e g /\ P (e_bbox e)).
  { intros P (b & I & Pb). apply in_map_iff in I. destruct I as (e & <- & I). eauto. }
  split; [intros e I; apply C; apply in_map; exact I|]. apply M in A, B, D, E. auto.
Qed.
Lemma columns_separated : let gs := group_by_columns order l in
  Permutation (concat gs) l /\ (forall g, In g gs -> g <> []) /\ StronglySorted left_of gs.
Proof.
  cbv zeta. unfold group_by_columns.
  destruct (sort_groups_spec order Ho (fun g => [rx0 (coll_bbox g)]) f l) as [P N]. cbv zeta in *. fold f.
  split; [exact P|]. split; [exact N|].
  assert (S : StronglySorted (fun a b => rx0 (coll_bbox a) <= rx0 (coll_bbox b)) (sort_key (fun g => [rx0 (coll_bbox g)]) (groups_of order f l))) by exact (sort1_sorted (fun g => rx0 (coll_bbox g)) (groups_of order f l)).
  assert (A : pairwise apart (sort_key (fun g => [rx0 (coll_bbox g)]) (groups_of order f l))).
  { apply (pairwise_perm apart) with (l := groups_of order f l); [intros a b [K|K]; [right|left]; exact K|apply py_sort_perm|apply groups_apart]. }
  assert (G : forall g e, In g (sort_key (fun g => [rx0 (coll_bbox g)]) (groups_of order f l)) -> In e g -> good_box e).
  { intros g e Ig Ie. apply Hl. eapply Permutation_in; [exact P|]. apply in_concat. exists g. split; assumption. }
  revert N S A G. clear P. generalize (sort_key (fun g => [rx0 (coll_bbox g)]) (groups_of order f l)) as gs.
  induction gs as [|g t IH]; intros N S A G; constructor.
  - inversion S; subst. inversion A; subst. apply IH; [intros; apply N; right; assumption|assumption|assumption|intros; eapply G; [right; eassumption|assumption]].
  - inversion S as [|? ? S1 S2]; subst. inversion A as [|? ? A1 A2]; subst. rewrite Forall_forall in *. intros h Ih.
    specialize (S2 h Ih). destruct (A1 h Ih) as [K|K]; [exact K|]. exfalso.
    destruct (coll_edges g) as (_ & (e & Ie & Ee) & _); [apply N; left; reflexivity|intros; eapply G; [left; reflexivity|assumption]|].
    destruct (coll_edges h) as (_ & (e' & Ie' & Ee') & _); [apply N; right; exact Ih|intros; eapply G; [right; exact Ih|assumption]|].
    specialize (K e' e Ie' Ie). destruct (G h e' (or_intror Ih) Ie') as ((Pe & _) & _). cbn beta in S2. lra.
Qed.
End Cols.
