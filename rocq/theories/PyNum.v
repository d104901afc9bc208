(** Numbers of the model: exact rationals.  Python floats are modelled by the
    rational numbers they denote and arithmetic is exact (binary rounding,
    infinities and NaN are not modelled).  These model CPython, not /repo. *)
From Coq Require Export List ZArith QArith Qround Qabs Lia Lqa Bool.
Export ListNotations.
Open Scope Q_scope.

(** Comparison operators. *)
Definition qle (x y : Q) : bool := Qle_bool x y.
Definition qlt (x y : Q) : bool := negb (Qle_bool y x).
Definition qeq (x y : Q) : bool := Qeq_bool x y.
(** [min(x, y)], [max(x, y)], [abs(x)]. *)
Definition qmin (x y : Q) : Q := if qlt y x then y else x.
Definition qmax (x y : Q) : Q := if qlt x y then y else x.
Definition qabs (x : Q) : Q := if qlt x 0 then - x else x.

(** [round(x)] to an integer: half to even. *)
Definition round_half_even (x : Q) : Z :=
  let f := Qfloor x in
  let d := x - inject_Z f in
  if qlt d (1 # 2) then f
  else if qlt (1 # 2) d then (f + 1)%Z
  else if Z.even f then f else (f + 1)%Z.
(** [int(x)]: truncation towards zero. *)
Definition qtrunc (x : Q) : Z := if qlt x 0 then (- Qfloor (- x))%Z else Qfloor x.
(** [round(x, n)]; [p] is 10^n. *)
Definition round_p (p : positive) (x : Q) : Q := inject_Z (round_half_even (x * inject_Z (Zpos p))) / inject_Z (Zpos p).
Definition round1 : Q -> Q := round_p 10.   (* round(x, 1) *)
Definition round2 : Q -> Q := round_p 100.  (* round(x, 2) *)

(* ------------------------------------------------------------------ *)
(** * Lemmas *)
Lemma qle_spec x y : reflect (x <= y) (qle x y).
Proof. unfold qle. apply iff_reflect. symmetry. apply Qle_bool_iff. Qed.
Lemma qlt_spec x y : reflect (x < y) (qlt x y).
Proof.
  unfold qlt. destruct (Qle_bool y x) eqn:E; constructor.
  - apply Qle_bool_iff in E. lra.
  - apply Qnot_le_lt. intros H. apply Qle_bool_iff in H. congruence.
Qed.
Lemma qeq_spec x y : reflect (x == y) (qeq x y).
Proof. unfold qeq. apply iff_reflect. symmetry. apply Qeq_bool_iff. Qed.
Lemma qle_iff x y : qle x y = true <-> x <= y.
Proof. destruct (qle_spec x y); split; intros; try assumption; try reflexivity; try discriminate; contradiction. Qed.
Lemma qlt_iff x y : qlt x y = true <-> x < y.
Proof. destruct (qlt_spec x y); split; intros; try assumption; try reflexivity; try discriminate; contradiction. Qed.
Lemma qeq_iff x y : qeq x y = true <-> x == y.
Proof. destruct (qeq_spec x y); split; intros; try assumption; try reflexivity; try discriminate; contradiction. Qed.

(** Case analysis on every comparison in the goal and context. *)
Ltac qcases :=
  repeat match goal with
  | |- context [qle ?a ?b] => destruct (qle_spec a b)
  | |- context [qlt ?a ?b] => destruct (qlt_spec a b)
  | |- context [qeq ?a ?b] => destruct (qeq_spec a b)
  | H : context [qle ?a ?b] |- _ => destruct (qle_spec a b)
  | H : context [qlt ?a ?b] |- _ => destruct (qlt_spec a b)
  | H : context [qeq ?a ?b] |- _ => destruct (qeq_spec a b)
  end.

Lemma qmin_l x y : qmin x y <= x. Proof. unfold qmin. qcases; lra. Qed.
Lemma qmin_r x y : qmin x y <= y. Proof. unfold qmin. qcases; lra. Qed.
Lemma qmax_l x y : x <= qmax x y. Proof. unfold qmax. qcases; lra. Qed.
Lemma qmax_r x y : y <= qmax x y. Proof. unfold qmax. qcases; lra. Qed.
Lemma qmin_case x y : qmin x y = x \/ qmin x y = y. Proof. unfold qmin. destruct (qlt y x); auto. Qed.
Lemma qmax_case x y : qmax x y = x \/ qmax x y = y. Proof. unfold qmax. destruct (qlt x y); auto. Qed.
Lemma qmin_sym x y : qmin x y == qmin y x. Proof. unfold qmin. qcases; lra. Qed.
Lemma qmax_sym x y : qmax x y == qmax y x. Proof. unfold qmax. qcases; lra. Qed.

Lemma qle_comp a b c d : a == c -> b == d -> qle a b = qle c d.
Proof. intros H1 H2. qcases; try reflexivity; exfalso; lra. Qed.
Lemma qlt_comp a b c d : a == c -> b == d -> qlt a b = qlt c d.
Proof. intros H1 H2. qcases; try reflexivity; exfalso; lra. Qed.
Lemma qeq_comp a b c d : a == c -> b == d -> qeq a b = qeq c d.
Proof. intros H1 H2. qcases; try reflexivity; exfalso; lra. Qed.
Lemma qmin_comp a b c d : a == c -> b == d -> qmin a b == qmin c d.
Proof. intros H1 H2. unfold qmin. qcases; lra. Qed.
Lemma qmax_comp a b c d : a == c -> b == d -> qmax a b == qmax c d.
Proof. intros H1 H2. unfold qmax. qcases; lra. Qed.
Lemma qabs_nonneg x : 0 <= qabs x. Proof. unfold qabs. qcases; lra. Qed.
Lemma qabs_sym x y : qabs (x - y) == qabs (y - x). Proof. unfold qabs. qcases; lra. Qed.

Lemma round_half_even_bound x :
  - (1 # 2) <= inject_Z (round_half_even x) - x <= 1 # 2.
Proof.
  unfold round_half_even. pose proof (Qfloor_le x) as H1. pose proof (Qlt_floor x) as H2.
  rewrite inject_Z_plus in H2. change (inject_Z 1) with 1 in H2.
  set (f := Qfloor x) in *. cbv zeta.
  destruct (qlt_spec (x - inject_Z f) (1 # 2)); [lra|].
  destruct (qlt_spec (1 # 2) (x - inject_Z f)).
  - rewrite inject_Z_plus. change (inject_Z 1) with 1. lra.
  - destruct (Z.even f); rewrite ?inject_Z_plus; change (inject_Z 1) with 1; lra.
Qed.
Lemma round_half_even_int z : round_half_even (inject_Z z) = z.
Proof.
  unfold round_half_even. rewrite Qfloor_Z. cbv zeta.
  destruct (qlt_spec (inject_Z z - inject_Z z) (1 # 2)) as [H|H]; [reflexivity|].
  exfalso. apply H. lra.
Qed.
Lemma Qfloor_comp' x y : x == y -> Qfloor x = Qfloor y.
Proof. intros H. apply Qfloor_comp. exact H. Qed.
Lemma round_half_even_comp x y : x == y -> round_half_even x = round_half_even y.
Proof.
  intros H. unfold round_half_even. rewrite (Qfloor_comp' x y H). cbv zeta.
  rewrite (qlt_comp (x - inject_Z (Qfloor y)) (1#2) (y - inject_Z (Qfloor y)) (1#2)) by lra.
  rewrite (qlt_comp (1#2) (x - inject_Z (Qfloor y)) (1#2) (y - inject_Z (Qfloor y))) by lra.
  reflexivity.
Qed.
Lemma inject_Z_le a b : inject_Z a <= inject_Z b <-> (a <= b)%Z.
Proof. rewrite <- Zle_Qle. reflexivity. Qed.
Lemma inject_Z_lt a b : inject_Z a < inject_Z b <-> (a < b)%Z.
Proof. rewrite <- Zlt_Qlt. reflexivity. Qed.

Lemma round_half_even_mono x y : x <= y -> (round_half_even x <= round_half_even y)%Z.
Proof.
  intros H. destruct (Z_le_gt_dec (round_half_even x) (round_half_even y)) as [|G]; [assumption|exfalso].
  pose proof (round_half_even_bound x) as Bx. pose proof (round_half_even_bound y) as By.
  assert (G1 : inject_Z (round_half_even y) + 1 <= inject_Z (round_half_even x)).
  { change 1 with (inject_Z 1). rewrite <- inject_Z_plus. apply inject_Z_le. lia. }
  (* both bounds are tight: x == y == k + 1/2 *)
  assert (E : x == y) by lra.
  rewrite (round_half_even_comp x y E) in G. lia.
Qed.

Lemma p_pos p : 0 < inject_Z (Zpos p).
Proof. change 0 with (inject_Z 0). apply inject_Z_lt. lia. Qed.
Lemma div_mul_p x p : x / inject_Z (Zpos p) * inject_Z (Zpos p) == x.
Proof. pose proof (p_pos p). field. intros E. rewrite E in H. discriminate H. Qed.

Lemma round_p_comp p x y : x == y -> round_p p x == round_p p y.
Proof. intros H. unfold round_p. rewrite (round_half_even_comp (x * inject_Z (Z.pos p)) (y * inject_Z (Z.pos p))); [reflexivity|]. rewrite H. reflexivity. Qed.
Lemma round_p_mono p x y : x <= y -> round_p p x <= round_p p y.
Proof.
  intros H. unfold round_p. pose proof (p_pos p) as Hp.
  apply Qmult_le_compat_r; [|apply Qlt_le_weak, Qinv_lt_0_compat; exact Hp].
  apply inject_Z_le. apply round_half_even_mono. apply Qmult_le_compat_r; [exact H|apply Qlt_le_weak; exact Hp].
Qed.
(** A value with at most n decimals is a fixed point. *)
Definition decimal (p : positive) (x : Q) : Prop := exists z, x == inject_Z z / inject_Z (Zpos p).
Lemma round_p_decimal p x : decimal p (round_p p x).
Proof. exists (round_half_even (x * inject_Z (Zpos p))). reflexivity. Qed.
Lemma round_p_fixed p x : decimal p x -> round_p p x == x.
Proof.
  intros (z & E). unfold round_p.
  rewrite (round_half_even_comp (x * inject_Z (Zpos p)) (inject_Z z)).
  - rewrite round_half_even_int. symmetry. exact E.
  - rewrite E. apply div_mul_p.
Qed.
Lemma round_p_idem p x : round_p p (round_p p x) == round_p p x.
Proof. apply round_p_fixed, round_p_decimal. Qed.
Lemma decimal_comp p x y : x == y -> decimal p x -> decimal p y.
Proof. intros E (z & H). exists z. rewrite <- E. exact H. Qed.
Lemma decimal_qmin p x y : decimal p x -> decimal p y -> decimal p (qmin x y).
Proof. destruct (qmin_case x y) as [->| ->]; auto. Qed.
Lemma decimal_qmax p x y : decimal p x -> decimal p y -> decimal p (qmax x y).
Proof. destruct (qmax_case x y) as [->| ->]; auto. Qed.
Lemma decimal_0 p : decimal p 0.
Proof. exists 0%Z. unfold Qdiv. change (inject_Z 0) with 0. lra. Qed.

Lemma round1_bound x : - (1 # 20) <= round1 x - x <= 1 # 20.
Proof.
  pose proof (round_half_even_bound (x * inject_Z 10)) as H.
  unfold round1, round_p. change (inject_Z 10) with 10 in *.
  set (r := inject_Z (round_half_even (x * 10))) in *. unfold Qdiv. change (/ 10) with (1 # 10). lra.
Qed.
Lemma round2_bound x : - (1 # 200) <= round2 x - x <= 1 # 200.
Proof.
  pose proof (round_half_even_bound (x * inject_Z 100)) as H.
  unfold round2, round_p. change (inject_Z 100) with 100 in *.
  set (r := inject_Z (round_half_even (x * 100))) in *. unfold Qdiv. change (/ 100) with (1 # 100). lra.
Qed.

(** Truncation. *)
Lemma qtrunc_nonneg x : 0 <= x -> (0 <= qtrunc x)%Z /\ inject_Z (qtrunc x) <= x < inject_Z (qtrunc x) + 1.
Proof.
  intros H. unfold qtrunc. destruct (qlt_spec x 0); [lra|].
  pose proof (Qfloor_le x). pose proof (Qlt_floor x) as H2. rewrite inject_Z_plus in H2. change (inject_Z 1) with 1 in H2.
  split; [|lra]. destruct (Z_le_gt_dec 0 (Qfloor x)) as [|G]; [assumption|exfalso].
  assert (inject_Z (Qfloor x) + 1 <= 0); [|lra].
  change 1 with (inject_Z 1). change 0 with (inject_Z 0). rewrite <- inject_Z_plus. apply inject_Z_le. lia.
Qed.
Lemma qtrunc_comp x y : x == y -> qtrunc x = qtrunc y.
Proof. intros H. unfold qtrunc. rewrite (qlt_comp x 0 y 0) by lra. rewrite (Qfloor_comp' x y H), (Qfloor_comp' (-x) (-y)) by lra. reflexivity. Qed.
Lemma qtrunc_Z z : qtrunc (inject_Z z) = z.
Proof. unfold qtrunc. destruct (qlt_spec (inject_Z z) 0); [rewrite <- inject_Z_opp, Qfloor_Z; lia|apply Qfloor_Z]. Qed.
