(** The shapes over the blocks of a page. *)
From Verif Require Import GeomProof ShapeModel TextModel TextSpec TextProof FmtSpec LayoutFormat FmtProof FmtProof2 FmtProof3.
From Verif Require Import CleanModel CleanSpec FlowModel FlowSpec LayoutModel WholeModel WholeSpec WholeProof FmtSpec.
From Coq Require Import List Lia Lqa Permutation Sorting.Sorted.
Import ListNotations.
Notation length := List.length.
Open Scope Q_scope.

Lemma over_meets a b : proper a -> proper b -> over a b -> rect_bool (rinter a b) = true.
Proof.
  intros Pa Pb (O1 & O2 & O3 & O4). rewrite rinter_proper by assumption. destruct Pa as [Pa1 Pa2], Pb as [Pb1 Pb2].
  destruct (qlt_spec (qmin (rx1 a) (rx1 b)) (qmax (rx0 a) (rx0 b))) as [A|A]; [exfalso; revert A; unfold qmin, qmax; qcases; intros; lra|].
  destruct (qlt_spec (qmin (ry1 a) (ry1 b)) (qmax (ry0 a) (ry0 b))) as [B|B]; [exfalso; revert B; unfold qmin, qmax; qcases; intros; lra|]. cbn [orb].
  unfold rect_bool. cbn [rx0 ry0 rx1 ry1]. apply negb_true_iff. apply Bool.not_true_iff_false. rewrite !andb_true_iff, !qeq_iff. intros (((X0 & Y0) & X1) & Y1).
  assert (qmax (ry0 a) (ry0 b) < qmin (ry1 a) (ry1 b)) by (unfold qmin, qmax; qcases; lra). lra.
Qed.
Lemma over_intersects a b : proper a -> proper b -> over a b -> rintersects b a = true.
Proof.
  intros Pa Pb (O1 & O2 & O3 & O4). unfold rintersects. rewrite (proper_nonempty a Pa), (proper_nonempty b Pb), (rinter_proper b a Pb Pa). cbn [negb andb].
  destruct Pa as [Pa1 Pa2], Pb as [Pb1 Pb2].
  assert (X : qmax (rx0 b) (rx0 a) < qmin (rx1 b) (rx1 a)) by (unfold qmin, qmax; qcases; lra). assert (Y : qmax (ry0 b) (ry0 a) < qmin (ry1 b) (ry1 a)) by (unfold qmin, qmax; qcases; lra).
  destruct (qlt_spec (qmin (rx1 b) (rx1 a)) (qmax (rx0 b) (rx0 a))) as [K|K]; [lra|]. destruct (qlt_spec (qmin (ry1 b) (ry1 a)) (qmax (ry0 b) (ry0 a))) as [K2|K2]; [lra|]. cbn [orb].
  apply qlt_iff. unfold area, rwidth, rheight. cbn [rx0 ry0 rx1 ry1]. apply Qmult_lt_0_compat; lra.
Qed.
Lemma over_sub a b c : over a c -> covers b c -> over a b.
Proof. intros (O1 & O2 & O3 & O4) (C1 & C2 & C3 & C4). split; [lra|]. split; [lra|]. split; lra. Qed.

(* ---------------- one shape over the lines of a block ---------------- *)
Lemma lines_step kind done s0 rest : proper (sh_bbox s0) -> rect_decimal (sh_bbox s0) -> forall ls0 ls, Forall2 (line_at kind done (s0 :: rest)) ls0 ls ->
  (forall l, In l ls0 -> set_line_ l /\ forall t, In t (line_texts l) -> clearly_marked kind (done ++ s0 :: rest) t) -> StronglySorted beneath ls0 -> forall s, still s0 s ->
  Forall2 (line_at kind (done ++ [s0]) rest) ls0 (fst (lines_format ls s)) /\ still s0 (snd (lines_format ls s)) /\
  ((forall l t, In l ls0 -> In t (line_texts l) -> clear_of (sh_bbox s0) (ts_bbox t)) -> snd (lines_format ls s) = s).
Proof.
  intros P D ls0 ls F. induction F as [|l0 l ls0 ls A F IH]; intros H So s Sl; cbn [lines_format]; [split; [constructor|]; split; [exact Sl|reflexivity]|].
  destruct (H l0 (or_introl eq_refl)) as (SL & M). pose proof (still_box _ _ Sl) as Eb. pose proof A as (Ad & Ap & Ab & Ar & Ax). pose proof SL as ((Pl & _ & _) & Dl & Cv & St).
  assert (Clr : forall l1, In l1 (l0 :: ls0) -> (forall t, In t (line_texts l1) -> ~ over (sh_bbox s0) (ts_bbox t)) -> forall t, In t (line_texts l1) -> clear_of (sh_bbox s0) (ts_bbox t)).
  { intros l1 Hl N t Ht. destruct (H l1 Hl) as (_ & M'). destruct (proj1 (M' t Ht) s0 (in_elt s0 done rest)) as [C|(O & _)]; [exact C|destruct (N t Ht O)]. }
  assert (H' : forall x, In x ls0 -> set_line_ x /\ forall t, In t (line_texts x) -> clearly_marked kind (done ++ s0 :: rest) t) by (intros x Hx; apply H; right; exact Hx).
  inversion So as [|? ? So' Fo]; subst.
  destruct (rect_bool (rinter (sh_bbox s) (expand_bbox (ln_elem l) MAJOR_DIST))) eqn:R; cbn [negb].
  - rewrite Ad, Dl. change (is_horizontal LEFT_RIGHT) with true. destruct (line_step kind done s0 rest l0 l s SL M Sl P D A) as (L1 & L2 & L3). destruct (split_spans true (ln_spans l) s) as [ss s1]. cbn [fst snd] in *.
    destruct (IH H' So' s1 L2) as (I1 & I2 & I3). destruct (lines_format ls s1) as [t' s2]. cbn [fst snd] in *. split; [constructor; assumption|]. split; [exact I2|].
    intros X. rewrite I3 by (intros x t Hx; apply X; right; exact Hx). apply L3. intros t. apply X. left. reflexivity.
  - assert (C0 : forall t, In t (line_texts l0) -> clear_of (sh_bbox s0) (ts_bbox t)).
    { apply Clr; [left; reflexivity|]. intros t Ht O. apply in_line_texts in Ht. pose proof (Cv _ Ht) as C. cbn [span_bbox] in C. apply (over_sub _ (ln_bbox l0)) in O; [|exact C].
      rewrite over_meets in R; [discriminate R|rewrite Eb; exact P| |]; destruct Ar as (R1 & R2 & R3 & R4), Pl as [Pl1 Pl2], O as (O1 & O2 & O3 & O4).
      - unfold expand_bbox, rplus, ln_elem, MAJOR_DIST. cbn [e_bbox]. split; cbn [rx0 ry0 rx1 ry1]; lra.
      - rewrite Eb. unfold expand_bbox, rplus, ln_elem, MAJOR_DIST, over. cbn [e_bbox rx0 ry0 rx1 ry1]. split; [lra|]. split; [lra|]. split; lra. }
    pose proof (line_clear kind done s0 rest l0 l SL C0 A) as L1. destruct (qlt_spec (ry1 (sh_bbox s)) (ry0 (ln_bbox l))) as [K|K].
    + cbn [fst snd]. split; [|split; [exact Sl|reflexivity]]. constructor; [exact L1|]. rewrite Eb in K.
      assert (Cl : forall x, In x ls0 -> forall t, In t (line_texts x) -> clear_of (sh_bbox s0) (ts_bbox t)).
      { intros x Hx. apply Clr; [right; exact Hx|]. intros t Ht O. rewrite Forall_forall in Fo. pose proof (Fo x Hx) as B. unfold beneath in B. destruct (H' x Hx) as ((_ & _ & Cx & _) & _). apply in_line_texts in Ht. destruct (Cx _ Ht) as (C1 & C2 & C3 & C4).
        cbn [span_bbox] in *. destruct O as (_ & _ & _ & O4). destruct Ar as (R1 & R2 & R3 & R4), Pl as [_ Pl2]. lra. }
      assert (Hs : forall x, In x ls0 -> set_line_ x) by (intros x Hx; apply (H' x Hx)). clear - F Cl Hs. induction F as [|x y l1 l2 A F IH]; constructor; [apply line_clear; [apply Hs; left; reflexivity|apply Cl; left; reflexivity|exact A]|apply IH; intros z Hz; [apply Cl|apply Hs]; right; exact Hz].
    + destruct (IH H' So' s Sl) as (I1 & I2 & I3). destruct (lines_format ls s) as [t' s2]. cbn [fst snd] in *. split; [constructor; assumption|]. split; [exact I2|]. intros X. apply I3. intros x t Hx. apply X. right. exact Hx.
Qed.

(* ---------------- the shapes over a block ---------------- *)
Lemma put_still l : forall l0 k s, Forall2 still l0 l -> still (nth k l0 empty_stroke) s -> Forall2 still l0 (upd_at k (fun _ => s) l).
Proof. intros l0 k s F. revert k s. induction F as [|x y l0 l S F IH]; intros [|k] s K; cbn [upd_at]; try constructor; try exact K; try exact F; try exact S. apply IH, K. Qed.
Lemma still_nth W w k : Forall2 still W w -> still (nth k W empty_stroke) (nth k w empty_stroke).
Proof. intros H. revert k. induction H as [|x y a b S H IH]; intros [|k]; try apply still_refl; [exact S|apply IH]. Qed.
Lemma upd_other {A} (l : list A) : forall k j f d, k <> j -> nth j (upd_at k f l) d = nth j l d.
Proof. induction l as [|x l IH]; intros [|k] [|j] f d N; cbn [upd_at nth]; try reflexivity; [congruence|apply IH; congruence]. Qed.
Definition block_texts (ls : list line) : list tspan := flat_map line_texts ls.
Lemma in_block_texts ls t : In t (block_texts ls) <-> exists l, In l ls /\ In t (line_texts l).
Proof. unfold block_texts. rewrite in_flat_map. reflexivity. Qed.
Definition shape0 (W : list shape) (k : nat) : shape := nth k W empty_stroke.
Lemma format_lines_marked kind W bb ls0 : (forall l, In l ls0 -> set_line_ l) -> StronglySorted beneath ls0 -> proper bb -> (forall l, In l ls0 -> covers bb (ln_bbox l)) ->
  forall ks done w ls w' ls', NoDup ks -> (forall k, In k ks -> proper (sh_bbox (shape0 W k)) /\ rect_decimal (sh_bbox (shape0 W k))) ->
  (forall t, In t (block_texts ls0) -> clearly_marked kind (done ++ map (shape0 W) ks) t) ->
  Forall2 (line_at kind done (map (shape0 W) ks)) ls0 ls -> Forall2 still W (w_shapes w) ->
  (forall k t, In k ks -> In t (block_texts ls0) -> over (sh_bbox (shape0 W k)) (ts_bbox t) -> shape_at w k = shape0 W k) ->
  format_lines w bb ls ks = (w', ls') ->
  Forall2 (line_at kind (done ++ map (shape0 W) ks) []) ls0 ls' /\ Forall2 still W (w_shapes w') /\ w_next w' = w_next w /\
  forall k, (In k ks -> forall t, In t (block_texts ls0) -> clear_of (sh_bbox (shape0 W k)) (ts_bbox t)) -> shape_at w' k = shape_at w k.
Proof.
  intros SL So Pb Cb. induction ks as [|k ks IH]; intros done w ls w' ls' Nd Pk M F Sw Lv E; cbn [format_lines] in E.
  - injection E as <- <-. cbn [map] in *. rewrite app_nil_r. split; [exact F|]. split; [exact Sw|]. split; reflexivity.
  - inversion Nd as [|? ? Nk Nd']; subst. cbn [map] in *. destruct (Pk k (or_introl eq_refl)) as (P & D). set (s0 := shape0 W k) in *. set (rest := map (shape0 W) ks) in *.
    assert (Sl : still s0 (shape_at w k)) by (apply still_nth; exact Sw).
    assert (Off : forall t, In t (block_texts ls0) -> ~ over (sh_bbox s0) (ts_bbox t) -> clear_of (sh_bbox s0) (ts_bbox t)) by (intros t Ht N; destruct (proj1 (M t Ht) s0 (in_elt s0 done rest)) as [C|(O & _)]; [exact C|contradiction]).
    assert (St : exists ls1 s1, (if applicable bb (shape_at w k) then lines_format ls (shape_at w k) else (ls, shape_at w k)) = (ls1, s1) /\ Forall2 (line_at kind (done ++ [s0]) rest) ls0 ls1 /\ still s0 s1 /\
       ((forall t, In t (block_texts ls0) -> clear_of (sh_bbox s0) (ts_bbox t)) -> s1 = shape_at w k)).
    { destruct (applicable bb (shape_at w k)) eqn:Ap.
      - destruct (lines_step kind done s0 rest P D ls0 ls F) with (s := shape_at w k) as (L1 & L2 & L3); [|exact So|exact Sl|].
        + intros l Hl. split; [apply SL, Hl|]. intros t Ht. apply M. apply in_block_texts. exists l. split; assumption.
        + destruct (lines_format ls (shape_at w k)) as [ls1 s1]. exists ls1, s1. split; [reflexivity|]. split; [exact L1|]. split; [exact L2|]. intros X. apply L3. intros l t Hl Ht. apply X, in_block_texts. exists l. split; assumption.
      - exists ls, (shape_at w k). split; [reflexivity|]. split; [|split; [exact Sl|reflexivity]].
        assert (C : forall t, In t (block_texts ls0) -> clear_of (sh_bbox s0) (ts_bbox t)).
        { intros t Ht. apply Off; [exact Ht|]. intros O. assert (Sh : shows s0 (ts_bbox t) (kind s0)) by (destruct (proj1 (M t Ht) s0 (in_elt s0 done rest)) as [X|(_ & X & _)]; [destruct (over_clear _ _ O X)|exact X]).
          rewrite (Lv k t (or_introl eq_refl) Ht O) in Ap. fold s0 in Ap. unfold applicable in Ap.
          assert (T : rtype_eqb (sh_type s0) R_HYPERLINK || rtype_eqb (sh_type s0) R_UNDEFINED = true) by (destruct (kind s0); cbn [shows] in Sh; try (destruct Sh; fail); [destruct Sh as (-> & _); reflexivity|destruct Sh as (-> & _); reflexivity|destruct Sh as (-> & _); reflexivity|rewrite Sh; reflexivity]).
          rewrite T in Ap. cbn [andb] in Ap. apply in_block_texts in Ht. destruct Ht as (l & Hl & Ht). apply in_line_texts in Ht. destruct (SL l Hl) as (_ & _ & Cv & _). pose proof (Cv _ Ht) as C1. cbn [span_bbox] in C1.
          rewrite over_intersects in Ap; [discriminate Ap|exact P|exact Pb|]. exact (over_sub _ _ _ (over_sub _ _ _ O C1) (Cb l Hl)). }
        assert (Cl : forall l, In l ls0 -> forall t, In t (line_texts l) -> clear_of (sh_bbox s0) (ts_bbox t)) by (intros l Hl t Ht; apply C, in_block_texts; exists l; split; assumption).
        clear - F Cl SL. induction F as [|x y l1 l2 A F IH]; constructor; [apply line_clear; [apply SL; left; reflexivity|apply Cl; left; reflexivity|exact A]|apply IH; intros z Hz; [apply SL|apply Cl]; right; exact Hz]. }
    destruct St as (ls1 & s1 & Es & F1 & Sl1 & Un). rewrite Es in E.
    assert (Ot : forall j, j <> k -> shape_at (put_shape k s1 w) j = shape_at w j) by (intros j Hj; unfold shape_at, put_shape; cbn [w_shapes]; apply upd_other; congruence).
    destruct (IH (done ++ [s0]) (put_shape k s1 w) ls1 w' ls' Nd') as (I1 & I2 & I3 & I4).
    + intros j Hj. apply Pk. right. exact Hj.
    + intros t Ht. rewrite <- app_assoc. apply M, Ht.
    + exact F1.
    + unfold put_shape. cbn [w_shapes]. apply put_still; [exact Sw|exact Sl1].
    + intros j t Hj Ht O. rewrite Ot by (intros ->; contradiction). apply (Lv j t); [right; exact Hj|exact Ht|exact O].
    + exact E.
    + rewrite <- app_assoc in I1. cbn [app] in I1. split; [exact I1|]. split; [exact I2|]. split; [rewrite I3; reflexivity|]. intros j Cj.
      rewrite I4 by (intros Hj; apply Cj; right; exact Hj). destruct (Nat.eq_dec j k) as [->|Nj]; [|apply Ot, Nj].
      unfold shape_at at 1, put_shape. cbn [w_shapes]. assert (X : s1 = shape_at w k) by (apply Un, Cj; left; reflexivity). subst s1. unfold shape_at. clear. revert k. induction (w_shapes w) as [|x l IH]; intros [|k]; cbn [upd_at nth]; try reflexivity. apply IH.
Qed.
