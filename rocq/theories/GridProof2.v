From Verif Require Import GeomModel GeomSpec GeomProof ShapeModel ParaModel ParaProof TableModel TableSpec TableProof TextProof StoreProof3 GridSpec GridProof.
From Verif Require TableProps.
From Coq Require Import List Lia Permutation Lqa Sorted.
Import ListNotations.
Open Scope Q_scope.

Lemma nth_pos (l : list Q) j x : nth_error l j = Some x -> nth j l 0 = x.
Proof. apply nth_error_nth. Qed.
Lemma steps_mono (p : nat -> Q) (d : Q) n : 0 <= d -> (forall i, (i < n)%nat -> p i + d < p (S i)) ->
  forall k i, (i + S k <= n)%nat -> p i + d < p (i + S k)%nat.
Proof.
  intros Hd H. induction k as [|k IH]; intros i L.
  - replace (i + 1)%nat with (S i) by lia. apply H. lia.
  - specialize (IH i ltac:(lia)). specialize (H (i + S k)%nat ltac:(lia)). replace (i + S (S k))%nat with (S (i + S k)) by lia. lra.
Qed.
Lemma steps_lt (p : nat -> Q) (d : Q) n : 0 <= d -> (forall i, (i < n)%nat -> p i + d < p (S i)) ->
  forall i j, (i < j)%nat -> (j <= n)%nat -> p i + d < p j.
Proof. intros Hd H i j L1 L2. replace j with (i + S (j - i - 1))%nat by lia. apply (steps_mono p d n Hd H). lia. Qed.
Lemma steps_le (p : nat -> Q) (d : Q) n : 0 <= d -> (forall i, (i < n)%nat -> p i + d < p (S i)) ->
  forall i j, (i <= j)%nat -> (j <= n)%nat -> p i <= p j.
Proof. intros Hd H i j L1 L2. destruct (Nat.eq_dec i j) as [->|N]; [lra|]. pose proof (steps_lt p d n Hd H i j ltac:(lia) L2). lra. Qed.

(* ------------------------------------------------------------------ *)
(** * One direction of a grid *)
Lemma pairwise_nth {A} (R : A -> A -> Prop) : forall l, (forall i j a b, (i < j)%nat -> nth_error l i = Some a -> nth_error l j = Some b -> R a b) -> pairwise R l.
Proof.
  induction l as [|x l IH]; intros H; constructor.
  - intros y Hy. apply In_nth_error in Hy. destruct Hy as (n & Hn). apply (H 0%nat (S n)); [lia|reflexivity|exact Hn].
  - apply IH. intros i j a b L Ha Hb. apply (H (S i) (S j)); [lia|exact Ha|exact Hb].
Qed.
Lemma sorted_nth (l : list Q) : (forall i j a b, (i < j)%nat -> nth_error l i = Some a -> nth_error l j = Some b -> a < b) -> StronglySorted Qlt l.
Proof.
  induction l as [|x l IH]; intros H; constructor.
  - apply IH. intros i j a b L Ha Hb. apply (H (S i) (S j)); [lia|exact Ha|exact Hb].
  - apply Forall_forall. intros y Hy. apply In_nth_error in Hy. destruct Hy as (n & Hn). apply (H 0%nat (S n)); [lia|reflexivity|exact Hn].
Qed.
Section Lines.
Variables (h : bool) (c w d : Q) (r : rect) (p q : nat -> Q) (n m : nat) (a b : nat -> nat) (L l : list shape) (wd : Q).
Hypothesis Hc : 0 <= c.
Hypothesis Hw : 0 <= w.
Hypothesis Hd : c + 1 <= d.
Hypothesis Hwd : 0 < wd.
Hypothesis N1 : (1 <= n)%nat.
Hypothesis M1 : (1 <= m)%nat.
Hypothesis Sp : forall i, (i < n)%nat -> p i + d < p (S i).
Hypothesis Sq : forall i, (i < m)%nat -> q i + d < q (S i).
Hypothesis AB : forall i, (i <= n)%nat -> (a i < b i)%nat /\ (b i <= m)%nat.
Hypothesis A0 : a 0%nat = 0%nat.
Hypothesis B0 : b 0%nat = m.
Hypothesis An : a n = 0%nat.
Hypothesis Bn : b n = m.
Hypothesis LL : length L = S n.
Hypothesis LS : forall i s, nth_error L i = Some s -> coord h s = round1 (p i) /\ s_from h s = q (a i) /\ s_to h s = q (b i) /\
  rect_decimal (sh_bbox s) /\ b_from h (sh_bbox s) = round1 (q (a i) - wd / 2) /\ b_to h (sh_bbox s) = round1 (q (b i) + wd / 2).
Hypothesis PL : Permutation l L.
Hypothesis R1 : b_at h true r = round1 (p 0%nat).
Hypothesis R2 : b_at h false r = round1 (p n).
Hypothesis R3 : b_from h r = round1 (q 0%nat).
Hypothesis R4 : b_to h r = round1 (q m).
Hypothesis Dr : rect_decimal r.
Let d0 : 0 <= d. Proof. lra. Qed.
Lemma lines_far : pairwise (far h c) L.
Proof.
  apply pairwise_nth. intros i j s t Hij Hs Ht. destruct (LS i s Hs) as (E1 & _). destruct (LS j t Ht) as (E2 & _). unfold far. rewrite E1, E2.
  assert (j < length L)%nat by (apply nth_error_Some; congruence). pose proof (steps_lt p d n d0 Sp i j Hij ltac:(lia)) as X.
  rewrite Qabs_Qminus. pose proof (round1_bound (p i)). pose proof (round1_bound (p j)). pose proof (Qle_Qabs (round1 (p j) - round1 (p i))). lra.
Qed.
Lemma line_at i : (i <= n)%nat -> exists s, nth_error L i = Some s.
Proof. intros H. destruct (nth_error L i) as [s|] eqn:E; [exists s; reflexivity|]. apply nth_error_None in E. lia. Qed.
Lemma lines_finished : keys_distinct (finished h c w r l) /\ sorted_keys (finished h c w r l) = map (fun i => round1 (p i)) (seq 0 (S n)) /\
  forall i s, nth_error L i = Some s -> exists dums, dget (round1 (p i)) (finished h c w r l) = Some (s :: dums) /\ forall x, In x dums -> backwards h x.
Proof.
  destruct (line_at 0 ltac:(lia)) as (s0 & E0). destruct (line_at n ltac:(lia)) as (s1 & E1).
  destruct (LS 0%nat s0 E0) as (F1 & F2 & F3 & F4 & F5 & F6). destruct (LS n s1 E1) as (G1 & G2 & G3 & G4 & G5 & G6).
  assert (Far : pairwise (far h c) l).
  { apply (pairwise_perm (far h c)) with (l := L); [|apply Permutation_sym, PL|apply lines_far]. intros x y. unfold far. rewrite Qabs_Qminus. auto. }
  assert (In0 : In s0 l) by (eapply Permutation_in; [apply Permutation_sym, PL|eapply nth_error_In; exact E0]).
  assert (In1 : In s1 l) by (eapply Permutation_in; [apply Permutation_sym, PL|eapply nth_error_In; exact E1]).
  assert (Idx : forall s, In s l -> exists i, (i <= n)%nat /\ nth_error L i = Some s).
  { intros s Hs. assert (Hs' : In s L) by (eapply Permutation_in; [exact PL|exact Hs]). apply In_nth_error in Hs'. destruct Hs' as (i & Hi). exists i. split; [|exact Hi].
    assert (i < length L)%nat by (apply nth_error_Some; congruence). lia. }
  assert (Mono : forall i j, (i <= j)%nat -> (j <= n)%nat -> round1 (p i) <= round1 (p j)) by (intros i j X1 X2; apply round_p_mono; apply (steps_le p d n d0 Sp); assumption).
  assert (Q0m : q 0%nat + d < q m) by (apply (steps_lt q d m d0 Sq); lia).
  assert (P0n : p 0%nat + d < p n) by (apply (steps_lt p d n d0 Sp); lia).
  assert (EndP : forall s, s = s0 \/ s = s1 -> rect_decimal (sh_bbox s) /\ b_from h (sh_bbox s) <= b_from h r /\ b_to h r <= b_to h (sh_bbox s) /\ b_from h (sh_bbox s) < b_to h (sh_bbox s)).
  { assert (X1 : round1 (q 0%nat - wd / 2) <= round1 (q 0%nat)) by (apply round_p_mono; setoid_replace (wd / 2) with (wd * (1 # 2)) by field; lra).
    assert (X2 : round1 (q m) <= round1 (q m + wd / 2)) by (apply round_p_mono; setoid_replace (wd / 2) with (wd * (1 # 2)) by field; lra).
    assert (X3 : round1 (q 0%nat) < round1 (q m)) by (pose proof (round1_bound (q 0%nat)); pose proof (round1_bound (q m)); lra).
    intros s [->| ->]; rewrite ?F5, ?F6, ?G5, ?G6, ?R3, ?R4, ?A0, ?B0, ?An, ?Bn; (split; [assumption|]); repeat split; lra. }
  assert (AbsZ : forall x y, x = y -> Qabs (x - y) <= w) by (intros x y ->; assert (Z : y - y == 0) by lra; rewrite Z; exact Hw).
  destruct (finished_spec h c w r l s0 s1 Hc Far In0 In1) as (K & D & Gt); [| | | | |exact Dr|exact EndP|].
  - intros s Hs. destruct (Idx s Hs) as (i & Hi & Ei). destruct (LS i s Ei) as (-> & _). rewrite F1. apply Mono; lia.
  - intros s Hs. destruct (Idx s Hs) as (i & Hi & Ei). destruct (LS i s Ei) as (-> & _). rewrite G1. apply Mono; lia.
  - rewrite F1, G1. pose proof (round1_bound (p 0%nat)); pose proof (round1_bound (p n)); lra.
  - apply AbsZ. congruence.
  - apply AbsZ. congruence.
  - split; [exact D|]. split.
    + assert (ML : map (coord h) L = map (fun i => round1 (p i)) (seq 0 (S n))).
      { apply nth_error_ext. intros i. rewrite !nth_error_map. destruct (nth_error L i) as [s|] eqn:E.
        - assert (i < length L)%nat by (apply nth_error_Some; congruence). rewrite seq_nth_error by lia. cbn [option_map]. f_equal. apply (LS i s E).
        - apply nth_error_None in E. assert (Z : nth_error (seq 0 (S n)) i = None) by (apply nth_error_None; rewrite seq_length; lia). rewrite Z. reflexivity. }
      apply sorted_keys_unique; [|rewrite K, <- ML; apply Permutation_map, PL|exact D].
      apply sorted_nth. intros i j x y Hij Hx Hy. rewrite nth_error_map in Hx, Hy.
      destruct (nth_error (seq 0 (S n)) i) as [i'|] eqn:Ei; [|discriminate]. destruct (nth_error (seq 0 (S n)) j) as [j'|] eqn:Ej; [|discriminate].
      destruct (in_seq_nth _ _ _ Ei) as (-> & Li). destruct (in_seq_nth _ _ _ Ej) as (-> & Lj). cbn [option_map] in Hx, Hy. injection Hx as <-. injection Hy as <-.
      pose proof (steps_lt p d n d0 Sp i j Hij ltac:(lia)). pose proof (round1_bound (p i)). pose proof (round1_bound (p j)). lra.
    + intros i s Hi. destruct (LS i s Hi) as (Ec & _). rewrite <- Ec. apply Gt. eapply Permutation_in; [apply Permutation_sym, PL|]. eapply nth_error_In. exact Hi.
Qed.
Lemma lines_crossed i k s dums : (k < m)%nat -> nth_error L i = Some s -> (forall x, In x dums -> backwards h x) ->
  crossed h (middle (round1 (q k), round1 (q (S k)))) (s :: dums) = true <-> (a i <= k < b i)%nat.
Proof.
  intros Hk Hs Bd. rewrite (crossed_line h _ s dums Bd). destruct (LS i s Hs) as (_ & -> & -> & _). unfold middle. cbn [fst snd].
  assert (Hi : (i <= n)%nat) by (assert (i < length L)%nat by (apply nth_error_Some; congruence); lia). destruct (AB i Hi) as (X1 & X2).
  pose proof (round1_bound (q k)) as Y1. pose proof (round1_bound (q (S k))) as Y2. pose proof (Sq k Hk) as Y3.
  setoid_replace ((round1 (q k) + round1 (q (S k))) / 2) with ((round1 (q k) + round1 (q (S k))) * (1 # 2)) by field. split.
  - intros (Z1 & Z2). split.
    + destruct (le_lt_dec (a i) k) as [E|E]; [exact E|exfalso]. pose proof (steps_le q d m d0 Sq (S k) (a i) ltac:(lia) ltac:(lia)). lra.
    + destruct (le_lt_dec (b i) k) as [E|E]; [exfalso|exact E]. pose proof (steps_le q d m d0 Sq (b i) k ltac:(lia) ltac:(lia)). lra.
  - intros (Z1 & Z2). pose proof (steps_le q d m d0 Sq (a i) k ltac:(lia) ltac:(lia)). pose proof (steps_le q d m d0 Sq (S k) (b i) ltac:(lia) ltac:(lia)). lra.
Qed.
End Lines.
