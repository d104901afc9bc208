(** The lines of a drawn table stay as they are when the shapes of a page are cleaned up. *)
From Verif Require GeomProof GridProof GridProof5.
From Verif Require Import AssignSpec AssignProof TextProof PySort ShapeModel ShapeProof BorderProof BorderProof3.
From Verif Require Import GridSpec.
From Verif Require Import CleanProof3 AssignSpec.
Notation pairwise := BorderProof3.pairwise.
From Coq Require Import Lia Lqa Permutation Sorting.Sorted.
Notation length := List.length.
Open Scope Q_scope.

Lemma apart_none a b thr : proper a -> proper b -> 1 # 1000000 < thr -> apart a b -> get_main_bbox a b thr = None.
Proof.
  intros Pa Pb T A. destruct (get_main_bbox a b thr) eqn:E; [|reflexivity]. exfalso.
  destruct (proj1 (GeomProof.main_bbox_ratio a b thr Pa Pb T)) as (X & _); [rewrite E; discriminate|]. rewrite (shared_area a b Pa Pb), (shared_apart a b A) in X. lra.
Qed.
Lemma shared_le a b : proper a -> proper b -> shared a b <= rwidth b * rheight a.
Proof.
  intros (A1 & A2) (B1 & B2). unfold shared, rwidth, rheight. set (ox := qmax 0 _). set (oy := qmax 0 _).
  assert (X : 0 <= ox /\ ox <= rx1 b - rx0 b) by (unfold ox, qmax, qmin; qcases; lra). assert (Y : 0 <= oy /\ oy <= ry1 a - ry0 a) by (unfold oy, qmax, qmin; qcases; lra).
  clearbody ox oy. destruct X, Y. apply Qle_trans with (ox * (ry1 a - ry0 a)); [rewrite !(Qmult_comm ox); apply Qmult_le_compat_r; lra|apply Qmult_le_compat_r; lra].
Qed.
(** A flat and a tall box that cross. *)
Lemma crossing_small a b : proper a -> proper b -> 2 * rwidth b < rwidth a -> 2 * rheight a < rheight b -> 2 * shared a b < qmin (area a) (area b).
Proof.
  intros Pa Pb W H. pose proof (shared_le a b Pa Pb) as S. destruct Pa as (A1 & A2), Pb as (B1 & B2).
  assert (Ha : 0 < rheight a) by (unfold rheight; lra). assert (Wb : 0 < rwidth b) by (unfold rwidth; lra).
  assert (X : 2 * (rwidth b * rheight a) < area a) by (unfold area; pose proof (proj2 (Qmult_lt_r (2 * rwidth b) (rwidth a) _ Ha) W); lra).
  assert (Y : 2 * (rwidth b * rheight a) < area b) by (unfold area; pose proof (proj2 (Qmult_lt_l (2 * rheight a) (rheight b) _ Wb) H); lra).
  unfold qmin. qcases; lra.
Qed.
Lemma crossing_none a b thr : proper a -> proper b -> 1 # 2 <= thr -> 2 * rwidth b < rwidth a -> 2 * rheight a < rheight b -> get_main_bbox a b thr = None /\ get_main_bbox b a thr = None.
Proof.
  intros Pa Pb T W H. pose proof (crossing_small a b Pa Pb W H) as S. assert (T' : 1 # 1000000 < thr) by lra. pose proof (area_pos a Pa) as Ka. pose proof (area_pos b Pb) as Kb.
  assert (M : 0 < qmin (area a) (area b)) by (unfold qmin; qcases; lra).
  assert (Sy : qmin (area b) (area a) == qmin (area a) (area b)) by (unfold qmin; qcases; lra).
  assert (G : forall x, (1 # 2) * x <= thr * x \/ x < 0) by (intros x; destruct (Qlt_le_dec x 0); [right; assumption|left; apply Qmult_le_compat_r; lra]).
  split.
  - destruct (get_main_bbox a b thr) eqn:E; [|reflexivity]. exfalso. destruct (proj1 (GeomProof.main_bbox_ratio a b thr Pa Pb T')) as (_ & X); [rewrite E; discriminate|]. rewrite (shared_area a b Pa Pb) in X.
    destruct (G (qmin (area a) (area b))); lra.
  - destruct (get_main_bbox b a thr) eqn:E; [|reflexivity]. exfalso. destruct (proj1 (GeomProof.main_bbox_ratio b a thr Pb Pa T')) as (_ & X); [rewrite E; discriminate|]. rewrite (shared_area b a Pb Pa), (shared_sym b a) in X.
    destruct (G (qmin (area b) (area a))); lra.
Qed.

(** Shapes of which no two are merged. *)
Definition unlike (thr : Q) (a b : shape) : Prop := get_main_bbox (sh_bbox a) (sh_bbox b) thr = None /\ get_main_bbox (sh_bbox b) (sh_bbox a) thr = None.
Lemma merge_into_none thr s : forall us, (forall u, In u us -> unlike thr u s) -> merge_into thr s us = us ++ [s].
Proof.
  induction us as [|u t IH]; intros H; [reflexivity|]. cbn [merge_into app]. rewrite IH by (intros x Hx; apply H; right; exact Hx). rewrite (proj2 (H u (or_introl eq_refl))). destruct (_ || _); reflexivity.
Qed.
Lemma merge_none thr l : pairwise (unlike thr) l -> merge_shapes thr l = l.
Proof.
  unfold merge_shapes. assert (G : forall l us, (forall u s, In u us -> In s l -> unlike thr u s) -> pairwise (unlike thr) l -> fold_left (fun uniq s => merge_into thr s uniq) l us = us ++ l).
  { clear l. induction l as [|s t IH]; intros us H P; [cbn; rewrite app_nil_r; reflexivity|]. inversion P as [|? ? F P1]; subst. cbn [fold_left]. rewrite merge_into_none by (intros u Hu; apply H; [exact Hu|left; reflexivity]).
    rewrite IH; [rewrite <- app_assoc; reflexivity| |exact P1]. intros u x Hu Hx. apply in_app_or in Hu. destruct Hu as [Hu|[<-|[]]]; [apply H; [exact Hu|right; exact Hx]|apply F, Hx]. }
  intros P. apply (G l []); [intros u s []|exact P].
Qed.

Section Rules.
Variables (d : Q) (g : grid).
Hypothesis Ok_ : grid_ok d g.
Hypothesis D1 : 1 <= d.
Hypothesis Dw : g_width g + 1 <= d.
Hypothesis W : 1 # 10 < g_width g.

Lemma near q : q - (1 # 20) <= round1 q <= q + (1 # 20).
Proof. pose proof (round1_bound q). lra. Qed.
Lemma rule_box x0 y0 x1 y1 s : rule (g_width g) x0 y0 x1 y1 s -> let b := sh_bbox s in
  x0 - g_width g * (1 # 2) - (1 # 20) <= rx0 b <= x0 - g_width g * (1 # 2) + (1 # 20) /\ y0 - g_width g * (1 # 2) - (1 # 20) <= ry0 b <= y0 - g_width g * (1 # 2) + (1 # 20) /\
  x1 + g_width g * (1 # 2) - (1 # 20) <= rx1 b <= x1 + g_width g * (1 # 2) + (1 # 20) /\ y1 + g_width g * (1 # 2) - (1 # 20) <= ry1 b <= y1 + g_width g * (1 # 2) + (1 # 20) /\ sh_kind s = KStroke /\ rect_decimal b.
Proof.
  intros (c & ty & u & ->). cbv zeta. cbn [sh_bbox sh_kind rround stroke_rect rx0 ry0 rx1 ry1].
  assert (E : g_width g / 2 == g_width g * (1 # 2)) by field. pose proof (near (x0 - g_width g / 2)). pose proof (near (y0 - g_width g / 2)). pose proof (near (x1 + g_width g / 2)). pose proof (near (y1 + g_width g / 2)).
  repeat split; try lra; apply round_p_decimal.
Qed.
Lemma h_box i s : (i <= g_rows g)%nat -> h_rule g i s -> proper (sh_bbox s) /\ sh_kind s = KStroke /\ rheight (sh_bbox s) <= g_width g + (1 # 10) /\ d + g_width g - (1 # 10) < rwidth (sh_bbox s) /\
  gy g i - g_width g * (1 # 2) - (1 # 20) <= ry0 (sh_bbox s) /\ ry1 (sh_bbox s) <= gy g i + g_width g * (1 # 2) + (1 # 20).
Proof.
  intros Hi R. pose proof (rule_box _ _ _ _ _ R) as (X0 & Y0 & X1 & Y1 & K & _). pose proof Ok_ as (_ & _ & _ & _ & _ & LR & _). destruct (LR i Hi) as (L1 & L2).
  pose proof (GridProof5.bx d g D1 Ok_ _ _ L1 L2) as Hx. unfold proper, rwidth, rheight. repeat split; try assumption; lra.
Qed.
Lemma v_box j s : (j <= g_cols g)%nat -> v_rule g j s -> proper (sh_bbox s) /\ sh_kind s = KStroke /\ rwidth (sh_bbox s) <= g_width g + (1 # 10) /\ d + g_width g - (1 # 10) < rheight (sh_bbox s) /\
  gx g j - g_width g * (1 # 2) - (1 # 20) <= rx0 (sh_bbox s) /\ rx1 (sh_bbox s) <= gx g j + g_width g * (1 # 2) + (1 # 20).
Proof.
  intros Hi R. pose proof (rule_box _ _ _ _ _ R) as (X0 & Y0 & X1 & Y1 & K & _). pose proof Ok_ as (_ & _ & _ & _ & _ & _ & TB & _). destruct (TB j Hi) as (L1 & L2).
  pose proof (GridProof5.by_ d g D1 Ok_ _ _ L1 L2) as Hx. unfold proper, rwidth, rheight. repeat split; try assumption; lra.
Qed.
Lemma rules_unlike thr hs vs : 1 # 2 <= thr -> length hs = length (g_ys g) -> length vs = length (g_xs g) ->
  (forall i s, nth_error hs i = Some s -> h_rule g i s) -> (forall j s, nth_error vs j = Some s -> v_rule g j s) -> pairwise (unlike thr) (hs ++ vs).
Proof.
  intros T Lh Lv Rh Rv. pose proof Ok_ as (C1 & C2 & _). unfold g_cols, g_rows in C1, C2.
  assert (Ih : forall i s, nth_error hs i = Some s -> (i <= g_rows g)%nat) by (intros i s E; assert (i < length hs)%nat by (apply nth_error_Some; congruence); unfold g_rows; lia).
  assert (Iv : forall i s, nth_error vs i = Some s -> (i <= g_cols g)%nat) by (intros i s E; assert (i < length vs)%nat by (apply nth_error_Some; congruence); unfold g_cols; lia).
  assert (T' : 1 # 1000000 < thr) by lra.
  assert (Nth : forall l, (forall a b x y, (a < b)%nat -> nth_error l a = Some x -> nth_error l b = Some y -> unlike thr x y) -> pairwise (unlike thr) l).
  { clear. induction l as [|x l IH]; intros H; [constructor|]. constructor; [intros y Hy; apply In_nth_error in Hy; destruct Hy as (b & Hb); apply (H 0%nat (S b)); [lia|reflexivity|exact Hb]|]. apply IH. intros a b p q L Ha Hb. apply (H (S a) (S b)); [lia|exact Ha|exact Hb]. }
  apply Nth. intros a b x y L Ha Hb. destruct (Nat.lt_ge_cases b (length hs)) as [Lb|Lb].
  - rewrite nth_error_app1 in Ha, Hb by lia. pose proof (Ih b y Hb) as Ib. destruct (h_box a x (Ih a x Ha) (Rh a x Ha)) as (Px & _ & _ & _ & _ & X). destruct (h_box b y Ib (Rh b y Hb)) as (Py & _ & _ & _ & Y & _).
    pose proof (GridProof5.by_ d g D1 Ok_ a b L Ib). split; apply apart_none; try assumption; unfold apart; lra.
  - rewrite (nth_error_app2 hs) in Hb by lia. pose proof (Iv _ y Hb) as Ib. destruct (v_box _ y Ib (Rv _ y Hb)) as (Py & _ & Y1 & Y2 & Y3 & Y4). destruct (Nat.lt_ge_cases a (length hs)) as [La|La].
    + rewrite nth_error_app1 in Ha by lia. destruct (h_box a x (Ih a x Ha) (Rh a x Ha)) as (Px & _ & X1 & X2 & _). apply crossing_none; try assumption; lra.
    + rewrite (nth_error_app2 hs) in Ha by lia. destruct (v_box _ x (Iv _ x Ha) (Rv _ x Ha)) as (Px & _ & _ & _ & _ & X4). pose proof (GridProof5.bx d g D1 Ok_ (a - length hs) (b - length hs) ltac:(lia) Ib).
      split; apply apart_none; try assumption; unfold apart; lra.
Qed.
Lemma drawn_strokes ss : drawn_grid g ss -> forall s, In s ss -> proper (sh_bbox s) /\ sh_kind s = KStroke /\ (d < rwidth (sh_bbox s) \/ d < rheight (sh_bbox s)) /\ rect_decimal (sh_bbox s).
Proof.
  intros (hs & vs & P & Lh & Lv & Rh & Rv) s Hs. apply (Permutation_in _ P), in_app_or in Hs. pose proof Ok_ as (C1 & C2 & _). unfold g_cols, g_rows in C1, C2.
  destruct Hs as [Hs|Hs]; apply In_nth_error in Hs; destruct Hs as (i & E).
  - assert (Hi : (i <= g_rows g)%nat) by (assert (i < length hs)%nat by (apply nth_error_Some; congruence); unfold g_rows; lia). pose proof (Rh i s E) as R. destruct (h_box i s Hi R) as (A & B & _ & C & _). split; [exact A|]. split; [exact B|]. split; [left; lra|apply (rule_box _ _ _ _ _ R)].
  - assert (Hi : (i <= g_cols g)%nat) by (assert (i < length vs)%nat by (apply nth_error_Some; congruence); unfold g_cols; lia). pose proof (Rv i s E) as R. destruct (v_box i s Hi R) as (A & B & _ & C & _). split; [exact A|]. split; [exact B|]. split; [right; lra|apply (rule_box _ _ _ _ _ R)].
Qed.
(** Shapes.clean_up leaves them alone. *)
Lemma clean_drawn page mw thr md ss : 1 # 2 <= thr -> md <= d -> proper page -> drawn_grid g ss -> (forall s, In s ss -> Rect.covers page (sh_bbox s)) -> Permutation ss (ShapeModel.clean_up page mw thr md ss).
Proof.
  intros T Md Pp Dr Cv. pose proof (drawn_strokes ss Dr) as St. unfold ShapeModel.clean_up.
  assert (S2 : forall s, In s (sort_key shape_key ss) -> In s ss) by (intros s Hs; apply py_sort_In in Hs; exact Hs).
  rewrite (filter_all (keep_shape page md)).
  2:{ intros s Hs. apply S2 in Hs. destruct (St s Hs) as (Ps & _ & Sz & _). specialize (Cv s Hs). unfold keep_shape. apply andb_true_iff. split.
      - rewrite (rintersects_shared _ _ Ps Pp). apply qlt_iff. rewrite shared_sym, (shared_covers _ _ Cv Ps). apply area_pos, Ps.
      - apply orb_true_iff. rewrite !qle_iff. destruct Sz; [left|right]; lra. }
  assert (PW : pairwise (unlike thr) (sort_key shape_key ss)).
  { destruct Dr as (hs & vs & P & Lh & Lv & Rh & Rv). apply (BorderProof3.pairwise_perm (unlike thr) ltac:(intros a b (X & Y); split; assumption) (hs ++ vs)); [eapply Permutation_trans; [apply Permutation_sym, P|apply py_sort_perm]|]. apply rules_unlike; assumption. }
  rewrite (merge_none thr _ PW).
  assert (M : map (stroke_if_thin mw) (sort_key shape_key ss) = sort_key shape_key ss).
  { rewrite <- (map_id (sort_key shape_key ss)) at 2. apply map_ext_in. intros s Hs. apply S2 in Hs. destruct (St s Hs) as (_ & K & _). unfold stroke_if_thin. rewrite K. reflexivity. }
  rewrite M, filter_all by (intros s Hs; apply S2 in Hs; apply GeomProof.proper_truthy; apply (St s Hs)). apply py_sort_perm.
Qed.
End Rules.
