From Verif Require Import SpacingSpec ParaProof ParaProps.
From Coq Require Import List Lia.
Open Scope Q_scope.

Lemma ext_lohi h r : extent h r = hi h r - lo h r.
Proof. destruct h; reflexivity. Qed.
Lemma Forall2_nil_inv {A B} (R : A -> B -> Prop) l : Forall2 R [] l -> l = [].
Proof. inversion 1. reflexivity. Qed.
Lemma row_count_unique ls n m : row_count ls n -> row_count ls m -> n = m.
Proof. intros H. revert m. induction H as [l|a b t n E H IH|a b t n E H IH]; intros m K; inversion K; subst; try congruence; auto. Qed.

(** Height of a paragraph with its space before. *)
Lemma text_height h bb ls n gap before l : is_horizontal (block_dir ls) = h -> row_count ls n ->
  ((1 < n)%nat \/ exists l0 t, ls = l0 :: t /\ extent h (ln_bbox l0) == extent h bb) ->
  line_spacing bb ls gap = Some (before, l) -> before + num n * l == gap + extent h bb /\ 0 <= before.
Proof.
  intros Hd R Hc E. destruct ls as [|l0 t]; [discriminate|]. destruct (C27_extent bb l0 t gap n before l R E) as (A1 & A2 & A3 & _). rewrite Hd in *.
  split; [|exact A3]. destruct (Nat.eq_dec n 1) as [->|N].
  - destruct Hc as [Hc|(l1 & t1 & El & Hx)]; [lia|]. injection El as <- <-. specialize (A2 eq_refl). unfold num. change (inject_Z (Z.of_nat 1)) with 1. lra.
  - assert (1 < n)%nat by (pose proof (row_count_pos _ _ R); lia).
    unfold num. apply A1. assumption.
Qed.
Lemma gap_space h c ref dw b : ref <= lo h (v_box b) - dw -> hi h (v_box b) <= hi h c -> para_space h c ref dw b == lo h (v_box b) - dw - ref.
Proof.
  intros A B. unfold para_space. cbv zeta. assert (E : qmax (hi h (v_box b) - hi h c) 0 == 0) by (unfold qmax; qcases; lra).
  set (d := qmax (hi h (v_box b) - hi h c) 0) in *. clearbody d. unfold qmax. qcases; lra.
Qed.

Lemma loop_positions h c : forall bs p v ref vs,
  spacing_loop h c (Some (p, v)) ref bs = Some vs -> v_after v == 0 ->
  (forall b, In b bs -> settable h b) -> tables_fit h c (negb (v_is_text p)) ref bs ->
  exists v' rest, vs = v' :: rest /\ v_before v' = v_before v /\ v_line v' = v_line v /\ 0 <= v_after v' /\ (v_is_text p = false -> v' = v) /\
    forall y ys, y == ref + v_after v' -> flows y bs rest ys -> Forall2 (fun b z => z == v_end h b) bs ys.
Proof.
  induction bs as [|b bs IH]; intros p v ref vs E Va St Fit.
  - cbn in E. injection E as <-. exists v, []. split; [reflexivity|]. split; [reflexivity|]. split; [reflexivity|]. split; [rewrite Va; lra|]. split; [auto|].
    intros y ys _ F. inversion F. constructor.
  - cbn [tables_fit] in Fit. destruct Fit as [Fb Ft]. assert (Sb := St b (or_introl eq_refl)). assert (St' := fun x Hx => St x (or_intror Hx)).
    destruct b as [bb ls|bb|bb w hs]; cbn [settable] in Sb; [|destruct Sb|].
    + cbn [spacing_loop v_border] in E. cbv zeta in E. cbn [v_box] in E.
      destruct (line_spacing bb ls (lo h bb - 0 - ref)) as [(before, l)|] eqn:L; [|discriminate].
      destruct (spacing_loop h c (Some (VText bb ls, mkV before 0 l)) (hi h bb + 0) bs) as [rest|] eqn:Er; [|discriminate]. cbn [option_map app] in E. injection E as <-.
      destruct Sb as (Hd & n & R & Hc). destruct (text_height h bb ls n _ before l Hd R Hc L) as [Th Tb].
      exists v, rest. split; [reflexivity|]. split; [reflexivity|]. split; [reflexivity|]. split; [rewrite Va; lra|]. split; [auto|].
      assert (Ft' : tables_fit h c (negb (v_is_text (VText bb ls))) (hi h bb + 0) bs).
      { cbn [v_outer v_box] in Ft. clear -Ft. destruct bs as [|b bs]; [exact I|]. cbn [tables_fit] in *. destruct Ft as [A B]. split; [|exact B]. destruct b as [| |? [w|] ?]; auto. destruct A. split; [lra|assumption]. }
      destruct (IH _ _ _ _ Er (Qeq_refl 0) St' Ft') as (v1 & rest1 & -> & Eb & El & Na & _ & K). cbn [v_before v_line] in Eb, El.
      intros y ys Ey F. inversion F as [|y0 bb0 ls0 n0 v0 bs0 vs0 ys0 R0 F0|]; subst. pose proof (row_count_unique _ _ _ R0 R) as En. subst n0.
      rewrite ext_lohi in Th. rewrite Va in Ey. constructor; [unfold v_end; cbn [v_box]; lra|]. apply (K _ ys0) in F0; [exact F0|]. lra.
    + destruct w as [w|]; [|destruct Sb]. destruct Fb as [F1 F2].
      assert (Sp : para_space h c ref (w / 2) (VTable bb (Some w) hs) == lo h bb - w / 2 - ref).
      { apply gap_space; cbn [v_box]; [destruct (negb (v_is_text p)); lra|exact F2]. }
      assert (Nx : v_outer h (VTable bb (Some w) hs) = hi h bb + w / 2) by reflexivity. rewrite Nx in Ft. rewrite ext_lohi in Sb.
      cbn [spacing_loop v_border] in E. cbv zeta in E. cbn [v_box] in E. set (sp := para_space h c ref (w / 2) (VTable bb (Some w) hs)) in *.
      destruct (v_is_text p) eqn:Tp; cbn [negb] in F1.
      * destruct (spacing_loop h c (Some (VTable bb (Some w) hs, mkV 0 0 0)) (hi h bb + w / 2) bs) as [rest|] eqn:Er; [|discriminate].
        cbn [option_map app] in E. injection E as <-. destruct (IH _ _ _ _ Er (Qeq_refl 0) St' Ft) as (v1 & rest1 & -> & _ & _ & _ & Ev & K). specialize (Ev eq_refl). subst v1.
        exists (mkV (v_before v) sp (v_line v)), (mkV 0 0 0 :: rest1).
        split; [reflexivity|]. split; [reflexivity|]. split; [reflexivity|]. split; [cbn [v_after]; lra|]. split; [congruence|].
        intros y ys Ey F. inversion F as [| |y0 bb0 w0 hs0 v0 bs0 vs0 ys0 F0]; subst. cbn [v_after v_before] in *.
        constructor; [unfold v_end; cbn [v_box]; lra|]. apply (K _ ys0) in F0; [exact F0|]. lra.
      * destruct (spacing_loop h c (Some (VTable bb (Some w) hs, mkV (qmax sp MINOR_DIST) 0 0)) (hi h bb + w / 2) bs) as [rest|] eqn:Er; [|discriminate].
        cbn [option_map app] in E. injection E as <-. destruct (IH _ _ _ _ Er (Qeq_refl 0) St' Ft) as (v1 & rest1 & -> & _ & _ & _ & Ev & K). specialize (Ev eq_refl). subst v1.
        exists v, (mkV (qmax sp MINOR_DIST) 0 0 :: rest1). assert (M : qmax sp MINOR_DIST == sp) by (unfold qmax, MINOR_DIST; qcases; lra).
        split; [reflexivity|]. split; [reflexivity|]. split; [reflexivity|]. split; [lra|]. split; [auto|].
        intros y ys Ey F. inversion F as [| |y0 bb0 w0 hs0 v0 bs0 vs0 ys0 F0]; subst. cbn [v_after v_before] in *.
        constructor; [unfold v_end; cbn [v_box]; lra|]. apply (K _ ys0) in F0; [exact F0|]. lra.
Qed.
Lemma first_positions h c bs vs :
  spacing_loop h c None (lo h c) bs = Some vs -> (forall b, In b bs -> settable h b) -> tables_fit h c false (lo h c) bs ->
  forall ys, flows (lo h c) bs vs ys -> Forall2 (fun b z => z == v_end h b) bs ys.
Proof.
  intros E St Fit. destruct bs as [|b bs]; [intros ys F; inversion F; constructor|].
  cbn [tables_fit] in Fit. destruct Fit as [Fb Ft]. assert (Sb := St b (or_introl eq_refl)). assert (St' := fun x Hx => St x (or_intror Hx)).
  destruct b as [bb ls|bb|bb w hs]; cbn [settable] in Sb; [|destruct Sb|].
  - cbn [spacing_loop v_border] in E. cbv zeta in E. cbn [v_box] in E.
    destruct (line_spacing bb ls (lo h bb - 0 - lo h c)) as [(before, l)|] eqn:L; [|discriminate].
    destruct (spacing_loop h c (Some (VText bb ls, mkV before 0 l)) (hi h bb + 0) bs) as [rest|] eqn:Er; [|discriminate]. cbn [option_map app] in E. injection E as <-.
    destruct Sb as (Hd & n & R & Hc). destruct (text_height h bb ls n _ before l Hd R Hc L) as [Th Tb].
    assert (Ft' : tables_fit h c (negb (v_is_text (VText bb ls))) (hi h bb + 0) bs).
    { cbn [v_outer v_box] in Ft. clear -Ft. destruct bs as [|b bs]; [exact I|]. cbn [tables_fit] in *. destruct Ft as [A B]. split; [|exact B]. destruct b as [| |? [w|] ?]; auto. destruct A. split; [lra|assumption]. }
    destruct (loop_positions h c bs _ _ _ _ Er (Qeq_refl 0) St' Ft') as (v1 & rest1 & -> & Eb & El & Na & _ & K). cbn [v_before v_line] in Eb, El.
    intros ys F. inversion F as [|y0 bb0 ls0 n0 v0 bs0 vs0 ys0 R0 F0|]; subst. pose proof (row_count_unique _ _ _ R0 R) as En. subst n0.
    rewrite ext_lohi in Th. constructor; [unfold v_end; cbn [v_box]; lra|]. apply (K _ ys0) in F0; [exact F0|]. lra.
  - destruct w as [w|]; [|destruct Sb]. destruct Fb as [F1 F2].
    assert (Sp : para_space h c (lo h c) (w / 2) (VTable bb (Some w) hs) == lo h bb - w / 2 - lo h c).
    { apply gap_space; cbn [v_box]; [lra|exact F2]. }
    assert (Nx : v_outer h (VTable bb (Some w) hs) = hi h bb + w / 2) by reflexivity. rewrite Nx in Ft. rewrite ext_lohi in Sb.
    cbn [spacing_loop v_border] in E. cbv zeta in E. cbn [v_box] in E. set (sp := para_space h c (lo h c) (w / 2) (VTable bb (Some w) hs)) in *.
    destruct (loop_positions h c bs _ _ _ _ E (Qeq_refl 0) St' Ft) as (v1 & rest1 & -> & _ & _ & _ & Ev & K). specialize (Ev eq_refl). subst v1.
    assert (M : qmax sp 0 == sp) by (unfold qmax; qcases; lra).
    intros ys F. inversion F as [| |y0 bb0 w0 hs0 v0 bs0 vs0 ys0 F0]; subst. cbn [v_after v_before] in *.
    constructor; [unfold v_end; cbn [v_box]; lra|]. apply (K _ ys0) in F0; [exact F0|]. lra.
Qed.

(* -------- what is written -------- *)
Lemma spaces_nonneg h c : forall bs prev ref vs, spacing_loop h c prev ref bs = Some vs ->
  match prev with Some (_, v) => 0 <= v_before v /\ 0 <= v_after v | None => True end ->
  forall v, In v vs -> 0 <= v_before v /\ 0 <= v_after v.
Proof.
  assert (Q : forall x y, y <= qmax x y) by (intros; unfold qmax; qcases; lra).
  assert (Q2 : forall x, 0 <= x -> 0 <= qmax x 0) by (intros; apply Q).
  induction bs as [|b bs IH]; intros prev ref vs E P u Hu.
  - cbn in E. injection E as <-. destruct prev as [(p, v)|]; [|destruct Hu]. destruct Hu as [<-|[]]. exact P.
  - assert (Hps : forall dw, 0 <= para_space h c ref dw b) by (intros; apply Q).
    cbn [spacing_loop] in E. cbv zeta in E. destruct (v_border b) as [dw|]; [|discriminate]. specialize (Hps dw).
    assert (D : forall v0 rest, 0 <= v_before v0 /\ 0 <= v_after v0 -> spacing_loop h c (Some (b, v0)) (hi h (v_box b) + dw) bs = Some rest ->
              forall done, (forall x, In x done -> 0 <= v_before x /\ 0 <= v_after x) -> In u (done ++ rest) -> 0 <= v_before u /\ 0 <= v_after u).
    { intros v0 rest P0 Er done Pd Hin. apply in_app_or in Hin. destruct Hin as [Hin|Hin]; [apply Pd; exact Hin|]. apply (IH _ _ _ Er P0 u Hin). }
    assert (Pd : forall x, In x (match prev with None => [] | Some (_, v) => [v] end) -> 0 <= v_before x /\ 0 <= v_after x).
    { destruct prev as [(p, v)|]; [|intros x []]. intros x [<-|[]]. exact P. }
    destruct b as [bb ls|bb|bb w hs].
    + destruct (line_spacing bb ls _) as [(before, l)|] eqn:L; [|discriminate].
      assert (B : 0 <= before). { destruct ls as [|l0 t]; [discriminate|]. apply (C27_extent bb l0 t _ _ before l (count_rows_spec t l0) L). }
      destruct (spacing_loop h c _ _ bs) as [rest|] eqn:Er; [|discriminate]. injection E as <-. apply (D (mkV before 0 l) rest (conj B (Qle_refl 0)) Er _ Pd Hu).
    + destruct (spacing_loop h c _ _ bs) as [rest|] eqn:Er; [|discriminate]. injection E as <-. apply (D (mkV (para_space h c ref dw (VImage bb)) 0 0) rest (conj Hps (Qle_refl 0)) Er _ Pd Hu).
    + destruct prev as [(p, v)|].
      * destruct (v_is_text p).
        -- destruct (spacing_loop h c _ _ bs) as [rest|] eqn:Er; [|discriminate]. injection E as <-. 
           apply (D (mkV 0 0 0) rest (conj (Qle_refl 0) (Qle_refl 0)) Er [mkV (v_before v) (para_space h c ref dw (VTable bb w hs)) (v_line v)]); [|exact Hu].
           intros x [<-|[]]. split; [apply P|exact Hps].
        -- destruct (spacing_loop h c _ _ bs) as [rest|] eqn:Er; [|discriminate]. injection E as <-. refine (D (mkV (qmax (para_space h c ref dw (VTable bb w hs)) MINOR_DIST) 0 0) rest (conj _ (Qle_refl 0)) Er _ Pd Hu).
           cbn [v_before]. eapply Qle_trans; [|apply Q]. unfold MINOR_DIST. lra.
      * refine (D (mkV (qmax (para_space h c ref dw (VTable bb w hs)) 0) 0 0) vs (conj _ (Qle_refl 0)) E [] _ Hu); [apply Q|intros x []].
Qed.
Lemma written_near q : 0 <= q -> - (1 # 20) <= written_space q - q <= 1 # 20.
Proof. intros H. unfold written_space. pose proof (round1_bound q) as B. unfold qmax. qcases; lra. Qed.
Lemma num_nonneg n : 0 <= num n.
Proof. unfold num. change 0 with (inject_Z 0). rewrite <- Zle_Qle. lia. Qed.
Lemma written_drift bs : forall p y' y e vs ys zs es, (forall v, In v vs -> 0 <= v_before v /\ 0 <= v_after v) ->
  - e <= y' - y <= e -> flows y bs vs ys -> written p y' bs vs zs -> budget e bs vs es ->
  forall k a z d, nth_error ys k = Some a -> nth_error zs k = Some z -> nth_error es k = Some d -> - d <= z - a <= d.
Proof.
  induction bs as [|b bs IH]; intros p y' y e vs ys zs es Nn Hy F W B k a z d Ha Hz Hd.
  - inversion F; subst. destruct k; discriminate.
  - inversion F as [|y0 bb ls n v bs0 vs0 ys0 R F0|y0 bb w hs v bs0 vs0 ys0 F0]; subst.
    + inversion W as [|p1 y1 bb1 ls1 n1 v1 bs1 vs1 ys1 R1 W1|]; subst. inversion B as [|e2 bb2 ls2 n2 v2 bs2 vs2 es2 R2 B2|]; subst.
      rewrite <- (row_count_unique _ _ _ R R1) in *. rewrite <- (row_count_unique _ _ _ R R2) in *.
      destruct (Nn v (or_introl eq_refl)) as [Nb Na]. pose proof (written_near _ Nb) as Wb. pose proof (written_near _ Na) as Wa.
      pose proof (round1_bound (v_line v)) as Wl. pose proof (num_nonneg n) as Np.
      assert (Ml : - (num n / 20) <= num n * round1 (v_line v) - num n * v_line v <= num n / 20).
      { set (r := round1 (v_line v)) in *. clearbody r. set (m := num n) in *. clearbody m. clear -Wl Np. assert (A : - (m * (1 # 20)) <= m * (r - v_line v) <= m * (1 # 20)) by (split; nra). unfold Qdiv. change (/ 20) with (1 # 20). lra. }
      assert (T1 : (num n + 1) / 20 == num n / 20 + (1 # 20)) by (unfold Qdiv; change (/ 20) with (1 # 20); ring).
      assert (T2 : (num n + 2) / 20 == num n / 20 + (1 # 10)) by (unfold Qdiv; change (/ 20) with (1 # 20); ring).
      set (M := num n / 20) in *. clearbody M. destruct k as [|k]; cbn in Ha, Hz, Hd.
      * injection Ha as <-. injection Hz as <-. injection Hd as <-. lra.
      * refine (IH _ _ _ _ _ _ _ _ _ _ F0 W1 B2 k a z d Ha Hz Hd); [intros x Hx; apply Nn; right; exact Hx|]. lra.
    + inversion W as [| |p1 y1 bb1 w1 hs1 v1 d1 bs1 vs1 ys1 Hdum W1]; subst. inversion B as [| |e2 bb2 w2 hs2 v2 bs2 vs2 es2 B2]; subst.
      destruct (Nn v (or_introl eq_refl)) as [Nb Na].
      assert (Hd1 : - slack v <= d1 - v_before v <= slack v).
      { unfold slack. destruct (Qeq_bool (v_before v) 0) eqn:Ez.
        - apply Qeq_bool_eq in Ez. destruct Hdum as [[_ (A & B1 & z7 & Eq)]|(_ & A & ->)]; [|lra]. assert (z7 = 0%Z).
          { rewrite Eq in A, B1. rewrite Ez in A, B1. unfold Qdiv in A, B1. change (/ 10) with (1 # 10) in A, B1. unfold Qle, Qlt in A, B1. cbn in A, B1. lia. }
          subst z7. rewrite Eq, Ez. split; vm_compute; discriminate.
        - destruct Hdum as [[_ (A & B1 & _)]|(_ & A & ->)]; lra. }
      set (s7 := slack v) in *. clearbody s7.
      destruct k as [|k]; cbn in Ha, Hz, Hd.
      * injection Ha as <-. injection Hz as <-. injection Hd as <-. lra.
      * refine (IH _ _ _ _ _ _ _ _ _ _ F0 W1 B2 k a z d Ha Hz Hd); [intros x Hx; apply Nn; right; exact Hx|]. lra.
Qed.
Lemma total_cons x l : total (x :: l) = x + total l.
Proof. reflexivity. Qed.
Lemma total_app a b : total (a ++ b) == total a + total b.
Proof. induction a as [|x a IH]; [cbn [app]; change (total []) with 0; lra|]. cbn [app]. rewrite !total_cons, IH. lra. Qed.
Lemma total_rev l : total (rev l) == total l.
Proof. induction l as [|x l IH]; [reflexivity|]. cbn [rev]. rewrite total_app, IH, !total_cons. change (total []) with 0. lra. Qed.
Lemma shrink_total l : l <> [] -> total (shrink_last l) == total l - 1.
Proof.
  intros N. unfold shrink_last. rewrite <- (total_rev l). destruct (rev l) as [|x t] eqn:E.
  - destruct l; [congruence|]. apply (f_equal (@rev Q)) in E. rewrite rev_involutive in E. discriminate.
  - rewrite total_rev, !total_cons. unfold MINOR_DIST. lra.
Qed.
