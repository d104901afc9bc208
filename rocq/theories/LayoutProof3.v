(** Of boxes in one another the largest stays. *)
From Verif Require GeomProof.
From Verif Require Import LayoutSpec FlowProof GraphProof AssignProof BorderProof2 BorderProof3 CleanProof3 PySort.
From Coq Require Import List Permutation Sorted Lia Lqa Relations.
Open Scope Q_scope.

Lemma covers_area a b : proper b -> Rect.covers a b -> area b <= area a.
Proof.
  intros [P1 P2] (C1 & C2 & C3 & C4). unfold area, rwidth, rheight. nra.
Qed.
Lemma covers_back a b : proper a -> proper b -> Rect.covers b a -> area b <= area a -> Rect.covers a b.
Proof.
  intros [P1 P2] [P3 P4] (C1 & C2 & C3 & C4) H. unfold area, rwidth, rheight in H.
  assert (X : rx1 b - rx0 b <= rx1 a - rx0 a) by (destruct (Qlt_le_dec (rx1 a - rx0 a) (rx1 b - rx0 b)) as [K|K]; [exfalso; nra|exact K]).
  assert (Y : ry1 b - ry0 b <= ry1 a - ry0 a) by (destruct (Qlt_le_dec (ry1 a - ry0 a) (ry1 b - ry0 b)) as [K|K]; [exfalso; nra|exact K]).
  repeat split; lra.
Qed.
Lemma largest_spec {A} (box : A -> rect) g : g <> [] -> exists k, largest box g = [k] /\ In k g /\ forall x, In x g -> area (box x) <= area (box k).
Proof.
  intros N. unfold largest. set (s := sort_key _ g). assert (P : Permutation g s) by apply py_sort_perm.
  assert (S : StronglySorted (fun a b => area (box a) <= area (box b)) s) by exact (sort1_sorted (fun a => area (box a)) g).
  destruct (rev s) as [|k r] eqn:E.
  - exfalso. apply N. apply Permutation_nil. rewrite <- (rev_involutive s), E in P. cbn in P. apply Permutation_sym. exact P.
  - exists k. split; [reflexivity|]. assert (Es : s = rev r ++ [k]) by (rewrite <- (rev_involutive s), E; reflexivity).
    split; [apply (Permutation_in _ (Permutation_sym P)); rewrite Es; apply in_or_app; right; left; reflexivity|].
    intros x Hx. apply (Permutation_in _ P) in Hx. rewrite Es in Hx, S. apply in_app_or in Hx. destruct Hx as [Hx|[<-|[]]]; [|apply Qle_refl].
    clear - Hx S. induction (rev r) as [|y t IH]; [destruct Hx|]. cbn [app] in S. inversion S as [|? ? S1 S2]; subst. destruct Hx as [->|Hx]; [|apply IH; assumption].
    rewrite Forall_forall in S2. apply S2. apply in_or_app. right. left. reflexivity.
Qed.
Section R.
Variable order : list nat -> list nat.
Variable Ho : forall l, Permutation l (order l).
Context {A : Type} (box : A -> rect) (l : list A).
Variable Hp : forall a, In a l -> proper (box a).
Let f := fun a b => rcontains (box a) (box b) || rcontains (box b) (box a).
Lemma f_iff a b : In a l -> In b l -> (f a b = true <-> one_in_other (box a) (box b)).
Proof. intros Ha Hb. unfold f, one_in_other. rewrite orb_true_iff, !rcontains_coversb, !coversb_iff by (apply Hp; assumption). reflexivity. Qed.
Lemma overlap_shape : exists gi, group_indexes f order l = Some gi /\ remove_overlap order box l = flat_map (largest box) (map (fun g => flat_map (item_at l) g) gi) /\
    NoDup (concat gi) /\ (forall i, (i < List.length l)%nat <-> In i (concat gi)) /\ (forall g, In g gi -> g <> []) /\
    (forall g i j, In g gi -> In i g -> (In j g <-> chained f l i j)).
Proof.
  destruct (group_indexes_spec f order Ho l) as (gi & E & ND & Rg & NE & Cl). exists gi. split; [exact E|]. split; [|repeat split; try assumption; apply Rg || apply Cl; assumption].
  unfold remove_overlap, group. fold f. rewrite E. reflexivity.
Qed.
Lemma item_in g e : In e (flat_map (item_at l) g) -> exists i, In i g /\ nth_error l i = Some e.
Proof. intros K. apply in_flat_map in K. destruct K as (i & Ii & K). unfold item_at in K. destruct (nth_error l i) eqn:En; [|destruct K]. destruct K as [<-|[]]. eauto. Qed.
Lemma in_item g i e : In i g -> nth_error l i = Some e -> In e (flat_map (item_at l) g).
Proof. intros Hi E. apply in_flat_map. exists i. split; [exact Hi|]. unfold item_at. rewrite E. left. reflexivity. Qed.
Lemma items_some gi g : (forall i, (i < List.length l)%nat <-> In i (concat gi)) -> (forall g, In g gi -> g <> []) -> In g gi -> flat_map (item_at l) g <> [].
Proof.
  intros Rg NE Hg. destruct g as [|i g]; [destruct (NE [] Hg eq_refl)|]. assert (L : (i < List.length l)%nat) by (apply Rg, in_concat; exists (i :: g); split; [exact Hg|left; reflexivity]).
  destruct (nth_error l i) as [a|] eqn:E; [|apply nth_error_None in E; lia]. intros K. pose proof (in_item (i :: g) i a (or_introl eq_refl) E) as H. rewrite K in H. destruct H.
Qed.
Lemma singles {B} (h : B -> list A) (gs : list B) : (forall g, In g gs -> exists k, h g = [k]) -> pairwise (fun g g' => forall a b, In a (h g) -> In b (h g') -> ~ one_in_other (box a) (box b)) gs ->
  pairwise (fun a b => ~ one_in_other (box a) (box b)) (flat_map h gs).
Proof.
  intros S D. induction D as [|g gs H D IH]; cbn [flat_map]; [constructor|]. destruct (S g (or_introl eq_refl)) as (k & Ek). rewrite Ek. cbn [app]. constructor.
  - intros b Hb. apply in_flat_map in Hb. destruct Hb as (g' & Hg' & Hb). apply (H g' Hg' k b); [rewrite Ek; left; reflexivity|exact Hb].
  - apply IH. intros g' Hg'. apply S. right. exact Hg'.
Qed.
Lemma overlap_kept : incl (remove_overlap order box l) l /\ pairwise (fun a b => ~ one_in_other (box a) (box b)) (remove_overlap order box l).
Proof.
  destruct overlap_shape as (gi & E & -> & ND & Rg & NE & Cl). split.
  - intros a Ha. apply in_flat_map in Ha. destruct Ha as (g & Hg & Ha). apply in_map_iff in Hg. destruct Hg as (g0 & <- & Hg0).
    destruct (largest_spec box _ (items_some gi g0 Rg NE Hg0)) as (k & Ek & Hk & _). rewrite Ek in Ha. destruct Ha as [<-|[]].
    apply item_in in Hk. destruct Hk as (i & _ & Ei). eapply nth_error_In. exact Ei.
  - apply singles.
    + intros g Hg. apply in_map_iff in Hg. destruct Hg as (g0 & <- & Hg0). destruct (largest_spec box _ (items_some gi g0 Rg NE Hg0)) as (k & Ek & _). exists k. exact Ek.
    + apply (pairwise_disjoint (fun _ _ => True)); [exact ND|]. intros g1 g2 I1 I2 D a b Ha Hb K.
      destruct (largest_spec box _ (items_some gi g1 Rg NE I1)) as (k1 & E1 & H1 & _). rewrite E1 in Ha. destruct Ha as [<-|[]].
      destruct (largest_spec box _ (items_some gi g2 Rg NE I2)) as (k2 & E2 & H2 & _). rewrite E2 in Hb. destruct Hb as [<-|[]].
      apply item_in in H1. destruct H1 as (i & Hi & Ei). apply item_in in H2. destruct H2 as (j & Hj & Ej).
      assert (Li := nth_error_In _ _ Ei). assert (Lj := nth_error_In _ _ Ej).
      apply (D j); [|exact Hj]. apply (Cl g1 i j I1 Hi). destruct (lt_eq_lt_dec i j) as [[L|L]|L].
      * apply rt_step. left. split; [exact L|]. exists k1, k2. repeat split; try assumption. apply f_iff; assumption.
      * subst j. apply rt_refl.
      * apply rt_step. right. split; [exact L|]. exists k2, k1. repeat split; try assumption. apply f_iff; try assumption. destruct K; [right|left]; assumption.
Qed.
Lemma overlap_group x : In x l -> exists g i k j, In k (remove_overlap order box l) /\ nth_error l i = Some x /\ nth_error l j = Some k /\
   (forall y, In y g <-> chained f l i y) /\ chained f l i j /\ (forall y e, In y g -> nth_error l y = Some e -> area (box e) <= area (box k)).
Proof.
  intros Hx. destruct overlap_shape as (gi & E & -> & ND & Rg & NE & Cl). apply In_nth_error in Hx. destruct Hx as (i & Ei).
  assert (L : (i < List.length l)%nat) by (apply nth_error_Some; congruence). apply Rg in L. apply in_concat in L. destruct L as (g & Hg & Hi).
  destruct (largest_spec box _ (items_some gi g Rg NE Hg)) as (k & Ek & Hk & Mk). apply item_in in Hk. destruct Hk as (j & Hj & Ej).
  exists g, i, k, j. split; [apply in_flat_map; eexists; split; [apply in_map; exact Hg|rewrite Ek; left; reflexivity]|].
  split; [exact Ei|]. split; [exact Ej|]. split; [intros y; apply (Cl g i y Hg Hi)|]. split; [apply (Cl g i j Hg Hi); exact Hj|].
  intros y e Hy Ee. apply Mk. eapply in_item; eauto.
Qed.
Lemma pair_nested i j a b : pair_holds f l i j -> nth_error l i = Some a -> nth_error l j = Some b -> one_in_other (box a) (box b).
Proof.
  intros [(_ & u & v & E1 & E2 & F)|(_ & u & v & E1 & E2 & F)] Ea Eb; rewrite Ea in *; rewrite Eb in *; injection E1 as <-; injection E2 as <-;
  apply f_iff in F; try (eapply nth_error_In; eassumption); [exact F|destruct F; [right|left]; assumption].
Qed.
Lemma pair_sym i j : pair_holds f l i j -> pair_holds f l j i.
Proof. intros [H|H]; [right|left]; exact H. Qed.
Lemma chain_sym' i j : chained f l i j -> chained f l j i.
Proof. induction 1 as [i j H|i|i j k _ IH1 _ IH2]; [apply rt_step, pair_sym; exact H|apply rt_refl|eapply rt_trans; eauto]. Qed.
(** What a chain of boxes in one another links. *)
Definition linked := clos_refl_trans A (fun a b => In a l /\ In b l /\ one_in_other (box a) (box b)).
Lemma chained_linked i j : chained f l i j -> forall a b, nth_error l i = Some a -> nth_error l j = Some b -> linked a b.
Proof.
  intros H. apply clos_rt_rt1n_iff in H. induction H as [i|i m j S _ IH]; intros a b Ea Eb; [rewrite Ea in Eb; injection Eb as <-; apply rt_refl|].
  destruct (nth_error l m) as [c|] eqn:Em.
  - eapply rt_trans; [apply rt_step|apply (IH c b eq_refl Eb)]. repeat split; try (eapply nth_error_In; eassumption). eapply pair_nested; eauto.
  - exfalso. destruct S as [(_ & u & v & E1 & E2 & F)|(_ & u & v & E1 & E2 & F)]; congruence.
Qed.
Lemma overlap_dropped x : In x l -> exists k, In k (remove_overlap order box l) /\ linked x k /\ area (box x) <= area (box k).
Proof.
  intros Hx. destruct (overlap_group x Hx) as (g & i & k & j & Hk & Ei & Ej & G & C & M). exists k. split; [exact Hk|]. split; [eapply chained_linked; eauto|].
  apply (M i); [apply G, rt_refl|exact Ei].
Qed.
Lemma overlap_laminar x : (forall a b c, In a l -> In b l -> In c l -> Rect.covers (box b) (box a) -> Rect.covers (box c) (box a) -> one_in_other (box b) (box c)) ->
  In x l -> exists k, In k (remove_overlap order box l) /\ Rect.covers (box k) (box x).
Proof.
  intros Lam Hx. destruct (overlap_group x Hx) as (g & i & k & j & Hk & Ei & Ej & G & C & M). exists k. split; [exact Hk|].
  assert (Lk := nth_error_In _ _ Ej).
  assert (X : forall y e, chained f l j y -> nth_error l y = Some e -> Rect.covers (box k) (box e)).
  { intros y e H. apply clos_rt_rtn1_iff in H. revert e. induction H as [|m y S H IH]; intros e Ee; [rewrite Ej in Ee; injection Ee as <-; apply GeomProof.covers_refl|].
    assert (Cy : chained f l i y) by (eapply rt_trans; [exact C|]; eapply rt_trans; [apply clos_rt_rtn1_iff; exact H|apply rt_step; exact S]).
    assert (Me := M y e (proj2 (G y) Cy) Ee). assert (Le := nth_error_In _ _ Ee).
    destruct (nth_error l m) as [c|] eqn:Em.
    - specialize (IH c eq_refl). assert (Lc := nth_error_In _ _ Em). destruct (pair_nested _ _ _ _ S Em Ee) as [N|N]; [eapply GeomProof.covers_trans; eauto|].
      destruct (Lam c e k Lc Le Lk N IH) as [K|K]; [|exact K]. apply covers_back; try (apply Hp; assumption); assumption.
    - exfalso. destruct S as [(_ & u & v & E1 & E2 & F)|(_ & u & v & E1 & E2 & F)]; congruence. }
  apply (X i x); [apply chain_sym'; exact C|exact Ei].
Qed.
End R.
