(** Lemmas about the Python built-ins of PyBase. *)
From Verif Require Import PyBase.
From Coq Require Import Sorted Permutation.
Open Scope Z_scope.

Lemma in_zrange a b x : In x (zrange a b) <-> a <= x < b.
Proof.
  unfold zrange. rewrite in_map_iff. split.
  - intros (k & <- & Hk). apply in_seq in Hk. lia.
  - intros H. exists (Z.to_nat (x - a)). split; [lia|]. apply in_seq. lia.
Qed.

Lemma zrange_length a b : length (zrange a b) = Z.to_nat (b - a).
Proof. unfold zrange. rewrite map_length, seq_length. reflexivity. Qed.

Lemma zrange_empty a b : b <= a -> zrange a b = [].
Proof. intros H. unfold zrange. replace (Z.to_nat (b - a)) with O by lia. reflexivity. Qed.

Lemma zrange_cons a b : a < b -> zrange a b = a :: zrange (a + 1) b.
Proof.
  intros H. unfold zrange.
  replace (Z.to_nat (b - a)) with (S (Z.to_nat (b - (a + 1)))) by lia.
  cbn [seq map]. f_equal; [lia|].
  rewrite <- seq_shift, map_map. apply map_ext. intros k. lia.
Qed.

Lemma zrange_app a b c : a <= b <= c -> zrange a b ++ zrange b c = zrange a c.
Proof.
  intros [H1 H2]. unfold zrange.
  replace (Z.to_nat (c - a)) with (Z.to_nat (b - a) + Z.to_nat (c - b))%nat by lia.
  rewrite seq_app, map_app. f_equal.
  cbn [Nat.add].
  replace (seq (Z.to_nat (b - a)) (Z.to_nat (c - b))) with
      (map (fun k => (Z.to_nat (b - a) + k)%nat) (seq 0 (Z.to_nat (c - b)))).
  - rewrite map_map. apply map_ext. intros k. lia.
  - generalize (Z.to_nat (b - a)) as m. generalize (Z.to_nat (c - b)) as n. clear.
    assert (G : forall n m s, map (fun k => (m + k)%nat) (seq s n) = seq (m + s) n).
    { induction n as [|n IH]; intros m s; cbn; [reflexivity|].
      f_equal. rewrite IH. f_equal. lia. }
    intros n m. rewrite G. f_equal. lia.
Qed.

Lemma nodup_zrange a b : NoDup (zrange a b).
Proof.
  unfold zrange. apply FinFun.Injective_map_NoDup.
  - intros x y H. lia.
  - apply seq_NoDup.
Qed.

Lemma nth_error_zrange a b k : (k < Z.to_nat (b - a))%nat -> nth_error (zrange a b) k = Some (a + Z.of_nat k).
Proof.
  intros H. unfold zrange. erewrite map_nth_error; [reflexivity|].
  rewrite nth_error_nth' with (d := O) by (rewrite seq_length; lia).
  rewrite seq_nth by lia. reflexivity.
Qed.

Lemma map_zrange_shift a b s : map (fun i => s + i) (zrange a b) = zrange (s + a) (s + b).
Proof.
  unfold zrange. rewrite map_map. replace (s + b - (s + a)) with (b - a) by lia.
  apply map_ext. intros k. lia.
Qed.


Lemma adjust_bound_pos n v : 0 <= n -> 0 <= adjust_bound n false v <= n.
Proof.
  intros H. unfold adjust_bound.
  destruct (v <? 0) eqn:E1; [destruct (v + n <? 0) eqn:E2 | destruct (n <=? v) eqn:E3];
    lia.
Qed.
Lemma adjust_bound_neg n v : 0 <= n -> -1 <= adjust_bound n true v <= n - 1.
Proof.
  intros H. unfold adjust_bound.
  destruct (v <? 0) eqn:E1; [destruct (v + n <? 0) eqn:E2 | destruct (n <=? v) eqn:E3];
    lia.
Qed.

(** Every index of a slice is valid. *)
Lemma slice_indices_valid n a b st i : 0 <= n -> st <> 0 -> In i (slice_indices n a b st) -> 0 <= i < n.
Proof.
  intros Hn Hst. unfold slice_indices. rewrite in_map_iff. intros (k & <- & Hk).
  apply in_seq in Hk. destruct Hk as [_ Hk]. unfold slice_count in Hk.
  destruct (st <? 0) eqn:Es.
  - assert (Hlo : -1 <= slice_start n a st <= n - 1).
    { unfold slice_start. rewrite Es. destruct a; [apply adjust_bound_neg|]; lia. }
    assert (Hhi : -1 <= slice_stop n b st <= n - 1).
    { unfold slice_stop. rewrite Es. destruct b; [apply adjust_bound_neg|]; lia. }
    destruct (slice_stop n b st <? slice_start n a st) eqn:E; [|lia].
    set (lo := slice_start n a st) in *. set (hi := slice_stop n b st) in *.
    assert (Z.of_nat k <= (lo - hi - 1) / - st) by lia.
    assert ((lo - hi - 1) / - st * - st <= lo - hi - 1).
    { rewrite Z.mul_comm. apply Z.mul_div_le. lia. }
    nia.
  - assert (Hlo : 0 <= slice_start n a st <= n).
    { unfold slice_start. rewrite Es. destruct a; [apply adjust_bound_pos|]; lia. }
    assert (Hhi : 0 <= slice_stop n b st <= n).
    { unfold slice_stop. rewrite Es. destruct b; [apply adjust_bound_pos|]; lia. }
    destruct (slice_start n a st <? slice_stop n b st) eqn:E; [|lia].
    set (lo := slice_start n a st) in *. set (hi := slice_stop n b st) in *.
    assert (Z.of_nat k <= (hi - lo - 1) / st) by lia.
    assert ((hi - lo - 1) / st * st <= hi - lo - 1).
    { rewrite Z.mul_comm. apply Z.mul_div_le. lia. }
    nia.
Qed.

Lemma flat_map_ext_in {A B} (f g : A -> list B) l :
  (forall x, In x l -> f x = g x) -> flat_map f l = flat_map g l.
Proof.
  induction l as [|x t IH]; intros H; cbn; [reflexivity|].
  rewrite H by (left; reflexivity). rewrite IH; [reflexivity|].
  intros y Hy. apply H. right. exact Hy.
Qed.

Lemma zrange_cons_inv a b : zrange a b = if a <? b then a :: zrange (a + 1) b else [].
Proof.
  destruct (a <? b) eqn:E; [apply zrange_cons; lia | apply zrange_empty; lia].
Qed.

(** Step-1 slices are contiguous. *)
Lemma slice_indices_step1 n a b : 0 <= n ->
  slice_indices n a b 1 = zrange (slice_start n a 1) (slice_stop n b 1).
Proof.
  intros Hn. unfold slice_indices, zrange, slice_count. cbn [Z.ltb Z.compare].
  replace (1 <? 0) with false by reflexivity.
  destruct (slice_start n a 1 <? slice_stop n b 1) eqn:E.
  - replace ((slice_stop n b 1 - slice_start n a 1 - 1) / 1 + 1)
      with (slice_stop n b 1 - slice_start n a 1) by (rewrite Z.div_1_r; lia).
    apply map_ext. intros k. lia.
  - replace (Z.to_nat (slice_stop n b 1 - slice_start n a 1)) with O by lia.
    replace (Z.to_nat 0) with O by reflexivity. reflexivity.
Qed.

Lemma firstn_skipn_seg {A} (l : list A) a b : 0 <= a -> a <= b <= zlen l ->
  flat_map (fun i => match nth_error l (Z.to_nat i) with Some x => [x] | None => [] end) (zrange a b)
  = firstn (Z.to_nat (b - a)) (skipn (Z.to_nat a) l).
Proof.
  intros Ha Hb. remember (Z.to_nat (b - a)) as m eqn:Em.
  revert a Ha Hb Em. induction m as [|m IH]; intros a Ha Hb Em.
  - rewrite zrange_empty by lia. reflexivity.
  - rewrite zrange_cons by lia. cbn [flat_map].
    rewrite IH by lia. unfold zlen in Hb.
    destruct (nth_error l (Z.to_nat a)) as [x|] eqn:E.
    2: { apply nth_error_None in E. lia. }
    assert (skipn (Z.to_nat a) l = x :: skipn (Z.to_nat (a + 1)) l) as ->.
    { replace (Z.to_nat (a + 1)) with (S (Z.to_nat a)) by lia.
      clear -E. revert l E. induction (Z.to_nat a) as [|k IHk]; intros l E.
      - destruct l; cbn in *; [discriminate|]. injection E as ->. reflexivity.
      - destruct l as [|y l]; cbn in E; [discriminate|]. cbn [skipn]. apply IHk. exact E. }
    reflexivity.
Qed.

Lemma py_slice_step1 {A} (l : list A) a b :
  py_slice l a b 1 =
  firstn (Z.to_nat (slice_stop (zlen l) b 1 - slice_start (zlen l) a 1))
         (skipn (Z.to_nat (slice_start (zlen l) a 1)) l).
Proof.
  unfold py_slice. assert (Hn : 0 <= zlen l) by (unfold zlen; lia).
  rewrite slice_indices_step1 by exact Hn.
  set (lo := slice_start _ _ _). set (hi := slice_stop _ _ _).
  assert (Hlo : 0 <= lo <= zlen l).
  { unfold lo, slice_start. destruct a; [apply adjust_bound_pos|]; cbn; lia. }
  assert (Hhi : 0 <= hi <= zlen l).
  { unfold hi, slice_stop. destruct b; [apply adjust_bound_pos|]; cbn; lia. }
  destruct (Z_le_gt_dec lo hi) as [H|H].
  - apply firstn_skipn_seg; lia.
  - rewrite zrange_empty by lia. replace (Z.to_nat (hi - lo)) with O by lia. reflexivity.
Qed.

Lemma py_slice_zrange n a b : 0 <= n ->
  py_slice (zrange 0 n) a b 1 = zrange (slice_start n a 1) (slice_stop n b 1).
Proof.
  intros Hn. unfold py_slice.
  assert (El : zlen (zrange 0 n) = n).
  { unfold zlen. rewrite zrange_length. lia. }
  rewrite El. rewrite slice_indices_step1 by exact Hn.
  set (lo := slice_start _ _ _). set (hi := slice_stop _ _ _).
  assert (Hlo : 0 <= lo <= n).
  { unfold lo, slice_start. destruct a; [apply adjust_bound_pos|]; cbn; lia. }
  assert (Hhi : 0 <= hi <= n).
  { unfold hi, slice_stop. destruct b; [apply adjust_bound_pos|]; cbn; lia. }
  assert (G : forall l, (forall i, In i l -> 0 <= i < n) ->
     flat_map (fun i => match nth_error (zrange 0 n) (Z.to_nat i) with Some x => [x] | None => [] end) l = l).
  { induction l as [|i t IH]; intros H; cbn [flat_map]; [reflexivity|].
    assert (Hi : 0 <= i < n) by (apply H; left; reflexivity).
    rewrite nth_error_zrange by lia. rewrite IH by (intros j Hj; apply H; right; exact Hj).
    cbn. f_equal. lia. }
  apply G. intros i Hi. apply in_zrange in Hi. lia.
Qed.

(** update *)
Lemma update_length {A} k (f : A -> A) l : length (update k f l) = length l.
Proof.
  revert k. induction l as [|x t IH]; intros k; destruct k; cbn; auto.
Qed.
Lemma nth_error_update_eq {A} k (f : A -> A) l :
  nth_error (update k f l) k = option_map f (nth_error l k).
Proof.
  revert k. induction l as [|x t IH]; intros k; destruct k; cbn; auto.
Qed.
Lemma nth_error_update_ne {A} k j (f : A -> A) l : j <> k ->
  nth_error (update k f l) j = nth_error l j.
Proof.
  revert k j. induction l as [|x t IH]; intros k j H; destruct k, j; cbn; auto; try congruence.
Qed.

Lemma norm_index_bound n i k : norm_index n i = Some k -> (Z.of_nat k < n).
Proof.
  unfold norm_index. destruct ((0 <=? i) && (i <? n)) eqn:E.
  - intros H. injection H as <-. lia.
  - destruct ((- n <=? i) && (i <? 0)) eqn:E2; [|discriminate].
    intros H. injection H as <-. lia.
Qed.
Lemma norm_index_in n i : 0 <= i < n -> norm_index n i = Some (Z.to_nat i).
Proof. intros H. unfold norm_index. replace ((0 <=? i) && (i <? n)) with true by lia. reflexivity. Qed.

Lemma list_ext {A} (l1 l2 : list A) : (forall k, nth_error l1 k = nth_error l2 k) -> l1 = l2.
Proof.
  revert l2. induction l1 as [|x t IH]; intros l2 H.
  - destruct l2; [reflexivity|]. specialize (H O). discriminate.
  - destruct l2 as [|y t2]; [specialize (H O); discriminate|].
    f_equal. + specialize (H O). cbn in H. congruence.
    + apply IH. intros k. exact (H (S k)).
Qed.
