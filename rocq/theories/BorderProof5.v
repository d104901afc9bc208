(** From candidate borders to drawn strokes. *)
From Verif Require Export BorderProof4.
From Verif Require Import PathProof.
From Coq Require Import Relations Lqa Lia Permutation Sorting.Sorted.
Open Scope Q_scope.

Section Final.
Variable rorder : list (Q * Q) -> list (Q * Q).
Hypothesis Hr : forall l, Permutation l (rorder l).
Lemma finalize_evolves strokes fills st : well_formed st ->
  exists ds st3, (forall d, In d ds -> dummy_of st d) /\ evolves (why strokes fills st3) (st ++ ds) (fst (finalize rorder strokes fills st)) /\ evolves anything (st ++ ds) st3.
Proof.
  intros W. destruct (finalize_spec rorder strokes fills st Hr W) as (ds & st1 & st3 & D & _ & _ & _ & V1 & V2 & V3).
  exists ds, st3. split; [exact D|]. split; [exact (evolves_three _ _ _ _ _ _ _ V1 V2 V3)|].
  eapply evolves_trans; eapply evolves_any; eassumption.
Qed.
Lemma app_nth1 {A} (st ds : list A) k b : nth_error st k = Some b -> nth_error (st ++ ds) k = Some b.
Proof. intros E. rewrite nth_error_app1; [exact E|]. apply nth_error_Some. congruence. Qed.
Lemma finalize_nth strokes fills st k b : well_formed st -> nth_error st k = Some b ->
  exists b', nth_error (fst (finalize rorder strokes fills st)) k = Some b' /\ settled anything b b'.
Proof.
  intros W E. destruct (finalize_evolves strokes fills st W) as (ds & st3 & _ & V & _). apply evolves_any in V.
  exact (evolves_nth _ _ _ V k b (app_nth1 st ds k b E)).
Qed.
Lemma finalize_wf strokes fills st : well_formed st -> well_formed (fst (finalize rorder strokes fills st)).
Proof.
  intros W. destruct (finalize_evolves strokes fills st W) as (ds & st3 & D & V & _). eapply evolves_wf; [exact V|]. apply dummy_wf; assumption.
Qed.
Lemma finalize_untouched strokes fills st b : sound st -> In b (fst (finalize rorder strokes fills st)) ->
  exists b0, settled anything b0 b /\ bd_fin b0 = None /\ bd_width b0 = 0 /\ bd_color b0 = 0%Z.
Proof.
  intros [W U] I. destruct (finalize_evolves strokes fills st W) as (ds & st3 & D & V & _). apply evolves_any in V.
  destruct (evolves_In _ _ _ _ V I) as (x & Ix & Sx). exists x. split; [exact Sx|]. apply in_app_or in Ix. destruct Ix as [Ix|Ix]; [apply U; exact Ix|].
  destruct (D x Ix) as (_ & F & _ & Wd & C & _). auto.
Qed.
End Final.

Lemma border_stroke st b L U : bd_ref b = false -> nth_error st (bd_l b) = Some L -> nth_error st (bd_u b) = Some U ->
  exists s, border_to_stroke st b = [s] /\ sh_type s = R_BORDER /\ sh_width s = bd_width b /\ sh_color s = bd_color b /\
    (bd_h b = true -> sh_y0 s = bd_value b /\ sh_y1 s = bd_value b /\ sh_x0 s = bd_value L /\ sh_x1 s = bd_value U) /\
    (bd_h b = false -> sh_x0 s = bd_value b /\ sh_x1 s = bd_value b /\ sh_y0 s = bd_value L /\ sh_y1 s = bd_value U) /\
    sh_bbox s = rround (stroke_rect (sh_x0 s) (sh_y0 s) (sh_x1 s) (sh_y1 s) (bd_width b)).
Proof.
  intros Rf EL EU. unfold border_to_stroke. rewrite Rf. unfold centerline. rewrite EL, EU.
  assert (K : forall r, area r == 0 -> stroke_update_bbox (new_stroke 0 0 0 0 (bd_width b) (bd_color b) R_UNDEFINED) r =
     mkShape KStroke (rround (stroke_rect (rx0 r) (ry0 r) (rx1 r) (ry1 r) (bd_width b))) (bd_color b) R_UNDEFINED (rx0 r) (ry0 r) (rx1 r) (ry1 r) (bd_width b) 0).
  { intros r A. unfold stroke_update_bbox. destruct (qeq_spec (area r) 0); [reflexivity|contradiction]. }
  destruct (bd_h b); rewrite K by (unfold area, rwidth, rheight; cbn [rx0 ry0 rx1 ry1]; ring); eexists; (split; [reflexivity|]); cbn [set_type sh_type sh_width sh_color sh_x0 sh_y0 sh_x1 sh_y1 sh_bbox rx0 ry0 rx1 ry1];
    repeat split; discriminate.
Qed.
Section Stream.
Variable order : list nat -> list nat.
Hypothesis Ho : forall l, Permutation l (order l).
Variable rorder : list (Q * Q) -> list (Q * Q).
Hypothesis Hr : forall l, Permutation l (rorder l).
Lemma stream_wf lines ib ob strokes fills : well_formed (fst (stream_borders order rorder lines ib ob strokes fills)).
Proof. unfold stream_borders. apply finalize_wf; [exact Hr|]. apply inner_sound. Qed.
Lemma round1_pos v : 1 <= v -> 0 < round1 v.
Proof. intros H. destruct (round1_bound v) as [A B]. lra. Qed.
(** A vertical border right of the page origin is really drawn. *)
Lemma drawn_v lines ib ob strokes fills k b : let st := fst (stream_borders order rorder lines ib ob strokes fills) in
  nth_error st k = Some b -> bd_ref b = false -> bd_h b = false -> 1 <= bd_value b ->
  exists s, In s (stream_strokes order rorder lines ib ob strokes fills) /\ sh_type s = R_BORDER /\ sh_x0 s = bd_value b /\ sh_x1 s = bd_value b /\
    exists L U, nth_error st (bd_l b) = Some L /\ nth_error st (bd_u b) = Some U /\ sh_y0 s = bd_value L /\ sh_y1 s = bd_value U.
Proof.
  cbv zeta. intros E Rf H V. pose proof (stream_wf lines ib ob strokes fills b (nth_error_In _ _ E)) as [(L & EL & _) (U & EU & _)].
  destruct (border_stroke _ b L U Rf EL EU) as (s & Es & T & W & C & _ & Hv & Bx). destruct (Hv H) as (X0 & X1 & Y0 & Y1).
  exists s. split; [|split; [exact T|split; [exact X0|split; [exact X1|exists L, U; auto]]]].
  unfold stream_strokes. apply filter_In. split; [apply in_flat_map; exists b; split; [eapply nth_error_In; exact E|rewrite Es; left; reflexivity]|].
  unfold shape_bool, rect_bool. rewrite Bx, X0, X1. unfold rround, stroke_rect. cbn [rx0 ry0 rx1 ry1].
  destruct (qeq_spec (round1 (bd_value b - bd_width b / 2)) 0) as [Z1|Z1]; cbn [negb orb]; [|reflexivity].
  destruct (qeq_spec (round1 (bd_value b + bd_width b / 2)) 0) as [Z2|Z2]; cbn [negb orb]; [|destruct (qeq (round1 (sh_y0 s - bd_width b / 2)) 0); reflexivity].
  exfalso. destruct (Qlt_le_dec (bd_width b / 2) 0) as [L0|L0].
  - pose proof (round1_pos (bd_value b - bd_width b / 2) ltac:(lra)). lra.
  - pose proof (round1_pos (bd_value b + bd_width b / 2) ltac:(lra)). lra.
Qed.
End Stream.
