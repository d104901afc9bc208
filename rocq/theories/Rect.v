(** Model of fitz.Rect (PyMuPDF 1.18, not part of /repo: trusted): construction,
    truth value, width/height/area, intersection, union, containment. *)
From Verif Require Export PyNum.
Open Scope Q_scope.

Record rect := mkRect { rx0 : Q; ry0 : Q; rx1 : Q; ry1 : Q }.
Definition rect0 : rect := mkRect 0 0 0 0.
Definition rcoords (r : rect) : list Q := [rx0 r; ry0 r; rx1 r; ry1 r].
(** [bool(r)]: some coordinate is non-zero. *)
Definition rect_bool (r : rect) : bool :=
  negb (qeq (rx0 r) 0 && qeq (ry0 r) 0 && qeq (rx1 r) 0 && qeq (ry1 r) 0).
Definition rwidth (r : rect) : Q := rx1 r - rx0 r.
Definition rheight (r : rect) : Q := ry1 r - ry0 r.
(** [r.getArea()]. *)
Definition area (r : rect) : Q := rwidth r * rheight r.
(** [r.isEmpty]. *)
Definition rect_empty (r : rect) : bool := qeq (rx0 r) (rx1 r) || qeq (ry0 r) (ry1 r).
(** [a & b] (fz_intersect_rect). *)
Definition rinter (a b : rect) : rect :=
  if rect_empty a then rect0
  else if rect_empty b then rect0
  else let x0 := qmax (rx0 a) (rx0 b) in
       let y0 := qmax (ry0 a) (ry0 b) in
       let x1 := qmin (rx1 a) (rx1 b) in
       let y1 := qmin (ry1 a) (ry1 b) in
       if qlt x1 x0 || qlt y1 y0 then rect0 else mkRect x0 y0 x1 y1.
(** [a | b] (fz_union_rect): an empty operand is ignored. *)
Definition runion (a b : rect) : rect :=
  if rect_empty b then a
  else if rect_empty a then b
  else mkRect (qmin (rx0 a) (rx0 b)) (qmin (ry0 a) (ry0 b)) (qmax (rx1 a) (rx1 b)) (qmax (ry1 a) (ry1 b)).
(** [a.contains(b)] / [b in a]. *)
Definition rcontains (a b : rect) : bool :=
  if rect_empty a then false
  else if rect_empty b then true
  else qle (rx0 a) (rx0 b) && qle (ry0 a) (ry0 b) && qle (rx1 b) (rx1 a) && qle (ry1 b) (ry1 a).
(** [a.intersects(b)]. *)
Definition rintersects (a b : rect) : bool :=
  negb (rect_empty a) && negb (rect_empty b) && qlt 0 (area (rinter a b)).
(** [r + (a, b, c, d)]. *)
Definition rplus (r : rect) (a b c d : Q) : rect := mkRect (rx0 r + a) (ry0 r + b) (rx1 r + c) (ry1 r + d).
Definition rround (r : rect) : rect := mkRect (round1 (rx0 r)) (round1 (ry0 r)) (round1 (rx1 r)) (round1 (ry1 r)).

(* ------------------------------------------------------------------ *)
(** Vocabulary. *)
(** Coordinates in order. *)
Definition valid (r : rect) : Prop := rx0 r <= rx1 r /\ ry0 r <= ry1 r.
(** Positive extent in both directions. *)
Definition proper (r : rect) : Prop := rx0 r < rx1 r /\ ry0 r < ry1 r.
(** [a] covers [b] as sets of points. *)
Definition covers (a b : rect) : Prop := rx0 a <= rx0 b /\ ry0 a <= ry0 b /\ rx1 b <= rx1 a /\ ry1 b <= ry1 a.
(** Same coordinates. *)
Definition req (a b : rect) : Prop := rx0 a == rx0 b /\ ry0 a == ry0 b /\ rx1 a == rx1 b /\ ry1 a == ry1 b.
(** At most one decimal in each coordinate. *)
Definition rect_decimal (r : rect) : Prop := decimal 10 (rx0 r) /\ decimal 10 (ry0 r) /\ decimal 10 (rx1 r) /\ decimal 10 (ry1 r).
(** Point (x, y) in the closed box. *)
Definition pin (x y : Q) (r : rect) : Prop := rx0 r <= x <= rx1 r /\ ry0 r <= y <= ry1 r.

Lemma rect_empty_false r : valid r -> rect_empty r = false <-> proper r.
Proof.
  intros [H1 H2]. unfold rect_empty, proper. split; intros H.
  - qcases; cbn in H; try discriminate. split; lra.
  - destruct H. qcases; cbn; try reflexivity; exfalso; lra.
Qed.
Lemma rect_empty_true r : valid r -> rect_empty r = true <-> rx0 r == rx1 r \/ ry0 r == ry1 r.
Proof. intros _. unfold rect_empty. rewrite orb_true_iff, !qeq_iff. reflexivity. Qed.
Lemma proper_valid r : proper r -> valid r. Proof. unfold proper, valid. intros [H1 H2]. split; lra. Qed.
Lemma proper_nonempty r : proper r -> rect_empty r = false.
Proof. intros H. apply rect_empty_false; [apply proper_valid; exact H|exact H]. Qed.
Lemma req_refl r : req r r. Proof. unfold req. repeat split; reflexivity. Qed.
Lemma rround_decimal r : rect_decimal (rround r).
Proof. unfold rect_decimal, rround, round1. cbn. repeat split; apply round_p_decimal. Qed.
Lemma rround_fixed r : rect_decimal r -> req (rround r) r.
Proof. intros (H1 & H2 & H3 & H4). unfold req, rround, round1. cbn. repeat split; apply round_p_fixed; assumption. Qed.
Lemma rround_valid r : valid r -> valid (rround r).
Proof. intros [H1 H2]. unfold valid, rround, round1. cbn. split; apply round_p_mono; assumption. Qed.

(** Intersection of proper boxes is the common part. *)
Lemma rinter_points a b x y : proper a -> proper b -> pin x y a -> pin x y b -> pin x y (rinter a b).
Proof.
  intros Ha Hb (H1 & H2) (H3 & H4). unfold rinter. rewrite !proper_nonempty by assumption. cbv zeta.
  unfold qmax, qmin, pin in *. qcases; cbn; try lra.
Qed.
Lemma rinter_covered a b : proper a -> proper b -> rinter a b <> rect0 ->
  covers a (rinter a b) /\ covers b (rinter a b) /\ valid (rinter a b).
Proof.
  intros Ha Hb. unfold rinter. rewrite !proper_nonempty by assumption. cbv zeta.
  unfold qmax, qmin, covers, valid. qcases; cbn; intros H; try (exfalso; apply H; reflexivity); repeat split; lra.
Qed.
Lemma area_nonneg r : valid r -> 0 <= area r.
Proof. intros [H1 H2]. unfold area, rwidth, rheight. apply Qmult_le_0_compat; lra. Qed.
Lemma area_pos r : proper r -> 0 < area r.
Proof. intros [H1 H2]. unfold area, rwidth, rheight. apply Qmult_lt_0_compat; lra. Qed.
Lemma area_rect0 : area rect0 == 0. Proof. reflexivity. Qed.
Lemma area_mono a b : valid b -> covers a b -> area b <= area a.
Proof.
  intros [H1 H2] (H3 & H4 & H5 & H6). unfold area, rwidth, rheight.
  assert (0 <= rx1 b - rx0 b) by lra. assert (0 <= ry1 b - ry0 b) by lra.
  assert (rx1 b - rx0 b <= rx1 a - rx0 a) by lra. assert (ry1 b - ry0 b <= ry1 a - ry0 a) by lra.
  set (u := rx1 b - rx0 b) in *. set (v := ry1 b - ry0 b) in *. set (w := rx1 a - rx0 a) in *. set (z := ry1 a - ry0 a) in *.
  nra.
Qed.
Lemma area_inter_le a b : proper a -> proper b -> 0 <= area (rinter a b) /\ area (rinter a b) <= area a /\ area (rinter a b) <= area b.
Proof.
  intros Ha Hb.
  assert (D : rinter a b = rect0 \/ rinter a b <> rect0).
  { unfold rinter. rewrite !proper_nonempty by assumption. cbv zeta.
    match goal with |- context [if ?c then _ else _] => destruct c end; [left; reflexivity|].
    match goal with |- ?r = rect0 \/ _ => generalize r end. intros [[n0 d0] [n1 d1] [n2 d2] [n3 d3]].
    unfold rect0. assert (forall p q : Q, {p = q} + {p <> q}) by (intros [n d] [n' d']; decide equality; (apply Pos.eq_dec || apply Z.eq_dec)).
    assert (forall p q : rect, {p = q} + {p <> q}) as X1 by (decide equality). destruct (X1 (mkRect (n0#d0) (n1#d1) (n2#d2) (n3#d3)) (mkRect 0 0 0 0)); auto. }
  destruct D as [E|E].
  - rewrite E, area_rect0. pose proof (area_pos a Ha). pose proof (area_pos b Hb). lra.
  - destruct (rinter_covered a b Ha Hb E) as (C1 & C2 & V).
    split; [apply area_nonneg; exact V|]. split; apply area_mono; assumption.
Qed.
Lemma rinter_sym a b : req (rinter a b) (rinter b a).
Proof.
  unfold rinter. destruct (rect_empty a), (rect_empty b); try apply req_refl. cbv zeta.
  pose proof (qmax_sym (rx0 a) (rx0 b)). pose proof (qmax_sym (ry0 a) (ry0 b)).
  pose proof (qmin_sym (rx1 a) (rx1 b)). pose proof (qmin_sym (ry1 a) (ry1 b)).
  rewrite (qlt_comp (qmin (rx1 a) (rx1 b)) (qmax (rx0 a) (rx0 b)) (qmin (rx1 b) (rx1 a)) (qmax (rx0 b) (rx0 a))) by assumption.
  rewrite (qlt_comp (qmin (ry1 a) (ry1 b)) (qmax (ry0 a) (ry0 b)) (qmin (ry1 b) (ry1 a)) (qmax (ry0 b) (ry0 a))) by assumption.
  match goal with |- context [if ?c then _ else _] => destruct c end; [apply req_refl|].
  unfold req. cbn. auto.
Qed.
(** Union of proper boxes: smallest box covering both. *)
Lemma runion_covers a b : proper a -> proper b -> covers (runion a b) a /\ covers (runion a b) b /\ proper (runion a b) /\
  forall c, covers c a -> covers c b -> covers c (runion a b).
Proof.
  intros Ha Hb. unfold runion. rewrite !proper_nonempty by assumption. unfold covers, proper, qmin, qmax in *.
  destruct Ha, Hb. qcases; cbn; repeat split; try lra; intros; lra.
Qed.
Lemma runion_decimal a b : rect_decimal a -> rect_decimal b -> rect_decimal (runion a b).
Proof.
  intros Ha Hb. unfold runion. destruct (rect_empty b); [exact Ha|]. destruct (rect_empty a); [exact Hb|].
  destruct Ha as (? & ? & ? & ?), Hb as (? & ? & ? & ?). unfold rect_decimal. cbn.
  repeat split; auto using decimal_qmin, decimal_qmax.
Qed.
