From Verif Require Import BorderSpec PySort GeomProof TableProof GraphProof.
Open Scope Q_scope.

(* ------------------------------------------------------------------ *)
(** * settled / evolves *)
Lemma frame_refl b : same_frame b b. Proof. repeat split. Qed.
Lemma settled_refl P b : settled P b b. Proof. split; [apply frame_refl|left; reflexivity]. Qed.
Lemma evolves_refl P st : evolves P st st.
Proof. induction st; constructor; [apply settled_refl|assumption]. Qed.
Lemma frame_trans a b c : same_frame a b -> same_frame b c -> same_frame a c.
Proof. unfold same_frame. intuition congruence. Qed.
Lemma settled_trans P a b c : settled P a b -> settled P b c -> settled P a c.
Proof.
  intros [F1 H1] [F2 H2]. split; [eapply frame_trans; eassumption|].
  destruct H1 as [->|(N & v & E & R & Q & W)]; [exact H2|].
  destruct H2 as [->|(N2 & _)]; [|congruence].
  right. split; [exact N|]. exists v. repeat split; try assumption; apply R.
Qed.
Lemma evolves_trans P a b c : evolves P a b -> evolves P b c -> evolves P a c.
Proof.
  intros H. revert c. induction H as [|x y l l' H1 _ IH]; intros c H2; inversion H2; subst; constructor.
  - eapply settled_trans; eassumption.
  - apply IH. assumption.
Qed.
Lemma settled_weaken (P Q : border -> Q -> Q -> Z -> Prop) a b : (forall v w c, P a v w c -> Q a v w c) -> settled P a b -> settled Q a b.
Proof.
  intros I [F [->|(N & v & E & R & X & W)]]; [split; [exact F|left; reflexivity]|].
  split; [exact F|right]. split; [exact N|]. exists v. repeat split; try assumption; try apply R. apply I. exact W.
Qed.
Lemma evolves_weaken (P Q : border -> Q -> Q -> Z -> Prop) a b : (forall x v w c, In x a -> P x v w c -> Q x v w c) -> evolves P a b -> evolves Q a b.
Proof.
  intros I H. induction H as [|x y l l' H1 _ IH]; constructor.
  - eapply settled_weaken; [|exact H1]. intros. apply I; [left; reflexivity|assumption].
  - apply IH. intros. apply I; [right|]; assumption.
Qed.
Lemma evolves_length P a b : evolves P a b -> length b = length a.
Proof. intros H. induction H; cbn; congruence. Qed.
Lemma evolves_nth P a b : evolves P a b -> forall k x, nth_error a k = Some x -> exists y, nth_error b k = Some y /\ settled P x y.
Proof.
  intros H. induction H as [|x y l l' H1 _ IH]; intros k z E; [destruct k; discriminate|].
  destruct k as [|k]; cbn in *; [injection E as <-; eauto|]. apply IH. exact E.
Qed.
Lemma evolves_nth_back P a b : evolves P a b -> forall k y, nth_error b k = Some y -> exists x, nth_error a k = Some x /\ settled P x y.
Proof.
  intros H. induction H as [|x y l l' H1 _ IH]; intros k z E; [destruct k; discriminate|].
  destruct k as [|k]; cbn in *; [injection E as <-; eauto|]. apply IH. exact E.
Qed.
Lemma evolves_In P a b y : evolves P a b -> In y b -> exists x, In x a /\ settled P x y.
Proof.
  intros H I. apply In_nth_error in I. destruct I as [k E]. destruct (evolves_nth_back P a b H k y E) as (x & E1 & S).
  exists x. split; [eapply nth_error_In; exact E1|exact S].
Qed.
Lemma evolves_is_dir P a b h k : evolves P a b -> is_dir h a k -> is_dir h b k.
Proof.
  intros H (x & E & D). destruct (evolves_nth P a b H k x E) as (y & E1 & (F & _)). exists y. split; [exact E1|].
  destruct F as (F & _). congruence.
Qed.
Lemma evolves_wf P a b : evolves P a b -> well_formed a -> well_formed b.
Proof.
  intros H W y I. destruct (evolves_In P a b y H I) as (x & Ix & (F & _)). destruct (W x Ix) as [D1 D2].
  destruct F as (F1 & _ & _ & F4 & F5). rewrite F1, F4, F5. split; eapply evolves_is_dir; eassumption.
Qed.
(** An open border of the new state is unchanged. *)
Lemma settled_open P x y : settled P x y -> bd_fin y = None -> y = x.
Proof. intros [_ [->|(_ & v & E & _)]] N; [reflexivity|congruence]. Qed.
Lemma settled_fixed P x y v : settled P x y -> bd_fin x = Some v -> y = x.
Proof. intros [_ [->|(N & _)]] E; [reflexivity|congruence]. Qed.

Lemma upd_at_evolves P k f : forall st, (forall b, nth_error st k = Some b -> settled P b (f b)) -> evolves P st (upd_at k f st).
Proof.
  induction k as [|k IH]; intros [|x t] H; cbn [upd_at]; try (constructor; fail).
  - constructor; [apply H; reflexivity|apply evolves_refl].
  - constructor; [apply settled_refl|]. apply IH. intros b E. apply H. exact E.
Qed.
Lemma upd_at_length {A} k (f : A -> A) : forall l, length (upd_at k f l) = length l.
Proof. induction k as [|k IH]; intros [|x t]; cbn; try reflexivity. rewrite IH. reflexivity. Qed.
Lemma upd_at_nth {A} (f : A -> A) : forall k l j, nth_error (upd_at k f l) j = if Nat.eqb j k then option_map f (nth_error l j) else nth_error l j.
Proof.
  induction k as [|k IH]; intros [|x t] [|j]; cbn; try reflexivity.
  - destruct (Nat.eqb j k); reflexivity.
  - rewrite IH. reflexivity.
Qed.
Lemma bd_valid_iff b v : bd_valid b v = true <-> near_range b v.
Proof. unfold bd_valid, near_range, MINOR_DIST. rewrite andb_true_iff, !qle_iff. reflexivity. Qed.
Lemma fin_value_settled (P : border -> Q -> Q -> Z -> Prop) b v : P b v (bd_width b) (bd_color b) -> settled P b (fst (fin_value b v)).
Proof.
  intros H. unfold fin_value. destruct (bd_fin b) as [u|] eqn:E; [apply settled_refl|].
  destruct (bd_valid b v) eqn:V; cbn [fst]; [|apply settled_refl]. apply bd_valid_iff in V.
  split; [repeat split|]. right. split; [exact E|]. exists v. cbn. repeat split; try assumption; apply V.
Qed.
Lemma fin_at_evolves (P : border -> Q -> Q -> Z -> Prop) k v st : (forall b, nth_error st k = Some b -> P b v (bd_width b) (bd_color b)) -> evolves P st (fin_at k v st).
Proof. intros H. unfold fin_at. apply upd_at_evolves. intros b E. apply fin_value_settled. apply H. exact E. Qed.

(* ------------------------------------------------------------------ *)
(** * Strokes *)
Lemma fin_value_true b v : snd (fin_value b v) = true -> bd_fin b = None /\ near_range b v.
Proof. unfold fin_value. destruct (bd_fin b); [discriminate|]. destruct (bd_valid b v) eqn:E; [|discriminate]. intros _. split; [reflexivity|]. apply bd_valid_iff. exact E. Qed.
Lemma fin_value_fixed b v : bd_fin b = None -> near_range b v ->
  fst (fin_value b v) = mkBorder (bd_h b) (Some v) false (bd_lo b) (bd_hi b) (bd_l b) (bd_u b) (bd_width b) (bd_color b) /\ snd (fin_value b v) = true.
Proof. intros N V. unfold fin_value. rewrite N. apply bd_valid_iff in V. rewrite V. split; reflexivity. Qed.
Lemma fin_stroke_evolves k s st b : well_formed st -> nth_error st k = Some b -> horizontal s = bd_h b -> evolves (from_stroke s) st (fst (fin_stroke k s st)).
Proof.
  intros W E H. unfold fin_stroke. rewrite E. cbv zeta. rewrite <- H.
  destruct (bd_valid b (if horizontal s then sh_y0 s else sh_x0 s)) eqn:V; cbn [negb]; [|apply evolves_refl].
  destruct (W b (nth_error_In _ _ E)) as [(L & EL & DL) (U & EU & DU)]. rewrite EL, EU.
  destruct (_ && _); cbn [fst]; [apply evolves_refl|].
  match goal with |- evolves _ _ (fin_at _ _ (fin_at _ _ ?x)) => set (st1 := x) end.
  assert (E1 : evolves (from_stroke s) st st1).
  { unfold st1. destruct (snd (fin_value _ _)) eqn:D; [|apply evolves_refl]. apply fin_value_true in D. destruct D as [N R].
    apply upd_at_evolves. intros b' E'. rewrite E in E'. injection E' as <-.
    destruct (fin_value_fixed b _ N R) as [-> _]. unfold set_style. cbn.
    split; [repeat split|right]. split; [exact N|]. eexists. cbn. split; [reflexivity|]. split; [exact R|]. split; [reflexivity|].
    left. repeat split. exact H. }
  assert (W1 : well_formed st1) by (eapply evolves_wf; eassumption).
  eapply evolves_trans; [exact E1|].
  assert (E2 : evolves (from_stroke s) st1 (fin_at (bd_l b) (if horizontal s then sh_x0 s else sh_y0 s) st1)).
  { apply fin_at_evolves. intros b' E'. destruct (evolves_nth _ _ _ E1 _ _ EL) as (y & Ey & (F & _)). rewrite E' in Ey. injection Ey as <-.
    right. destruct F as (F & _). rewrite F, DL, H. rewrite negb_involutive. repeat split. left. unfold low_end. rewrite <- H. reflexivity. }
  eapply evolves_trans; [exact E2|].
  apply fin_at_evolves. intros b' E'. destruct (evolves_nth _ _ _ (evolves_trans _ _ _ _ E1 E2) _ _ EU) as (y & Ey & (F & _)). rewrite E' in Ey. injection Ey as <-.
  right. destruct F as (F & _). rewrite F, DU, H. rewrite negb_involutive. repeat split. right. unfold high_end. rewrite <- H. reflexivity.
Qed.
Lemma stroke_loop_evolves s : forall ks st used, well_formed st -> evolves (from_stroke s) st (fst (stroke_loop s ks st used)).
Proof.
  induction ks as [|k t IH]; intros st used W; cbn [stroke_loop]; [apply evolves_refl|].
  destruct (nth_error st k) as [b|] eqn:E; [|apply IH; exact W].
  destruct (Bool.eqb (horizontal s) (bd_h b)) eqn:H; [|apply IH; exact W]. apply eqb_prop in H.
  pose proof (fin_stroke_evolves k s st b W E H) as V. destruct (fin_stroke k s st) as [st' d]. cbn [fst] in V.
  eapply evolves_trans; [exact V|]. apply IH. eapply evolves_wf; eassumption.
Qed.
Lemma determined_false s : determined s = false -> sh_type s = R_UNDEFINED.
Proof. unfold determined. destruct (sh_type s); cbn; congruence. Qed.
Lemma by_strokes_evolves : forall ss st, well_formed st -> evolves (from_strokes ss) st (fst (by_strokes ss st)).
Proof.
  induction ss as [|s t IH]; intros st W; cbn [by_strokes]; [apply evolves_refl|].
  destruct (determined s) eqn:D.
  - specialize (IH st W). destruct (by_strokes t st) as [st' r]. cbn [fst] in *.
    eapply evolves_weaken; [|exact IH]. intros x v w c _ (s' & I & R). exists s'. split; [right; exact I|exact R].
  - apply determined_false in D.
    pose proof (stroke_loop_evolves s (seq 0 (length st)) st false W) as V. destruct (stroke_loop s (seq 0 (length st)) st false) as [st1 used]. cbn [fst] in V.
    specialize (IH st1 (evolves_wf _ _ _ V W)). destruct (by_strokes t st1) as [st' r]. cbn [fst] in *.
    eapply evolves_trans; [|eapply evolves_weaken; [|exact IH]].
    + eapply evolves_weaken; [|exact V]. intros x v w c _ X. exists s. split; [left; reflexivity|]. split; [exact D|exact X].
    + intros x v w c _ (s' & I & X). exists s'. split; [right; exact I|exact X].
Qed.

(* ------------------------------------------------------------------ *)
(** * A stroke and the borders of its direction *)
Lemma fin_at_nth_fixed k v st j b u : nth_error st j = Some b -> bd_fin b = Some u -> nth_error (fin_at k v st) j = Some b.
Proof.
  intros E F. unfold fin_at. rewrite upd_at_nth, E. destruct (Nat.eqb j k); [|reflexivity]. cbn. unfold fin_value. rewrite F. reflexivity.
Qed.
Lemma fin_at_nth_other k v st j : j <> k -> nth_error (fin_at k v st) j = nth_error st j.
Proof. intros N. unfold fin_at. rewrite upd_at_nth. apply Nat.eqb_neq in N. rewrite N. reflexivity. Qed.
(** What one call of finalize_by_stroke does to borders of the direction of the stroke. *)
Lemma fin_stroke_same_dir k s st b : well_formed st -> nth_error st k = Some b -> horizontal s = bd_h b ->
  let '(st', d) := fin_stroke k s st in
  (forall j x, j <> k -> nth_error st j = Some x -> bd_h x = horizontal s -> nth_error st' j = Some x) /\
  (d = true -> bd_fin b = None /\ exists b', nth_error st' k = Some b' /\ bd_fin b' = Some (across s) /\ bd_width b' = sh_width s /\ bd_color b' = sh_color s /\ bd_h b' = bd_h b) /\
  (d = false -> nth_error st' k = Some b).
Proof.
  intros W E H. unfold fin_stroke. rewrite E. cbv zeta.
  destruct (bd_valid b _) eqn:V; cbn [negb].
  2: { split; [intros; assumption|]. split; [discriminate|intros _; exact E]. }
  destruct (W b (nth_error_In _ _ E)) as [(L & EL & DL) (U & EU & DU)]. rewrite EL, EU.
  destruct (_ && _).
  { split; [intros; assumption|]. split; [discriminate|intros _; exact E]. }
  assert (NL : forall j x, nth_error st j = Some x -> bd_h x = horizontal s -> j <> bd_l b) by (intros j x Ej D ->; rewrite EL in Ej; injection Ej as <-; rewrite DL, H in D; destruct (bd_h b); discriminate).
  assert (NU : forall j x, nth_error st j = Some x -> bd_h x = horizontal s -> j <> bd_u b) by (intros j x Ej D ->; rewrite EU in Ej; injection Ej as <-; rewrite DU, H in D; destruct (bd_h b); discriminate).
  split; [|split].
  - intros j x N Ej D. rewrite !fin_at_nth_other; [|eapply NL; eassumption|eapply NU; eassumption].
    destruct (snd _); [|exact Ej]. rewrite upd_at_nth. apply Nat.eqb_neq in N. rewrite N. exact Ej.
  - intros D. rewrite D. apply fin_value_true in D. destruct D as [N R]. split; [exact N|].
    rewrite !fin_at_nth_other; [|apply (NL k b E); symmetry; exact H|apply (NU k b E); symmetry; exact H].
    rewrite upd_at_nth, Nat.eqb_refl, E. cbn [option_map]. eexists. split; [reflexivity|].
    destruct (fin_value_fixed b _ N R) as [-> _]. unfold set_style. cbn. unfold across. rewrite H. repeat split.
  - intros D. rewrite D. rewrite !fin_at_nth_other; [exact E|apply (NL k b E); symmetry; exact H|apply (NU k b E); symmetry; exact H].
Qed.
(** A border in reach of the stroke is finalised by the call. *)
Lemma fin_stroke_takes k s st b : well_formed st -> nth_error st k = Some b -> bd_fin b = None -> reaches st b s ->
  snd (fin_stroke k s st) = true.
Proof.
  intros W E N (H & R & B). unfold fin_stroke. rewrite E. cbv zeta. rewrite <- H.
  destruct (W b (nth_error_In _ _ E)) as [(L & EL & DL) (U & EU & DU)].
  pose proof R as V. apply bd_valid_iff in V. unfold across in V. rewrite V. cbn [negb]. rewrite EL, EU.
  specialize (B L U EL EU). unfold low_end, high_end in B.
  destruct (_ && _) eqn:C.
  - apply andb_true_iff in C. rewrite !qlt_iff in C. destruct C. exfalso. destruct B; lra.
  - cbn [snd]. apply fin_value_fixed; assumption.
Qed.
Lemma stroke_loop_used s : forall ks st used, well_formed st ->
  let '(st', u) := stroke_loop s ks st used in
  (used = true -> u = true) /\
  (u = true -> used = true \/ exists k b b', nth_error st k = Some b /\ bd_h b = horizontal s /\ bd_fin b = None /\
      nth_error st' k = Some b' /\ bd_fin b' = Some (across s) /\ bd_width b' = sh_width s /\ bd_color b' = sh_color s) /\
  (forall k b, nth_error st k = Some b -> bd_h b = horizontal s -> bd_fin b = None -> nth_error st' k = Some b \/ u = true) /\
  (forall k b, In k ks -> nth_error st k = Some b -> reaches st b s -> exists b' v, nth_error st' k = Some b' /\ bd_fin b' = Some v).
Proof.
  induction ks as [|k t IH]; intros st used W; cbn [stroke_loop].
  { split; [tauto|]. split; [tauto|]. split; [tauto|]. intros k b [].  }
  destruct (nth_error st k) as [b|] eqn:E.
  2: { specialize (IH st used W). destruct (stroke_loop s t st used) as [st' u]. destruct IH as (I1 & I2 & I3 & I4).
       repeat split; try assumption. intros j x [->|I] Ej; [congruence|]. apply I4; assumption. }
  destruct (Bool.eqb (horizontal s) (bd_h b)) eqn:H.
  - apply eqb_prop in H. pose proof (fin_stroke_evolves k s st b W E H) as V.
    pose proof (fin_stroke_same_dir k s st b W E H) as D. pose proof (fin_stroke_takes k s st b W E) as Tk.
    destruct (fin_stroke k s st) as [st1 d]. cbn [fst snd] in *. destruct D as (D1 & D2 & D3).
    pose proof (evolves_wf _ _ _ V W) as W1. specialize (IH st1 (used || d) W1).
    pose proof (stroke_loop_evolves s t st1 (used || d) W1) as V2.
    destruct (stroke_loop s t st1 (used || d)) as [st' u]. cbn [fst] in V2. destruct IH as (I1 & I2 & I3 & I4).
    assert (DU : d = true -> u = true) by (intros ->; apply I1; apply orb_true_r).
    split; [intros ->; apply I1; reflexivity|]. split; [|split].
    + intros Hu. destruct (I2 Hu) as [X|(j & x & x' & Ej & Dx & Nx & Ej' & Rest)].
      * apply orb_true_iff in X. destruct X as [X|X]; [left; exact X|right].
        destruct (D2 X) as (N & b' & Eb' & F' & Wd & C & _). exists k, b, b'. repeat split; try assumption; try (symmetry; exact H).
        destruct (evolves_nth _ _ _ V2 k b' Eb') as (y & Ey & Sy). rewrite (settled_fixed _ _ _ _ Sy F') in Ey. exact Ey.
      * right. destruct (evolves_nth_back _ _ _ V j x Ej) as (x0 & E0 & S0). pose proof (settled_open _ _ _ S0 Nx) as ->.
        exists j, x0, x'. repeat split; try assumption; apply Rest.
    + intros j x Ej Dx Nx. destruct (Nat.eq_dec j k) as [->|Nk].
      * rewrite E in Ej. injection Ej as <-. destruct d; [right; apply DU; reflexivity|]. apply I3; [apply D3; reflexivity|symmetry; exact H|exact Nx].
      * apply I3; [apply D1; assumption|exact Dx|exact Nx].
    + intros j x I Ej R.
      destruct (Nat.eq_dec j k) as [->|Nk].
      * rewrite E in Ej. injection Ej as <-. destruct (bd_fin b) as [v|] eqn:Fb.
        -- destruct (evolves_nth _ _ _ V k b E) as (y & Ey & Sy). rewrite (settled_fixed _ _ _ _ Sy Fb) in Ey.
           destruct (evolves_nth _ _ _ V2 k b Ey) as (z & Ez & Sz). rewrite (settled_fixed _ _ _ _ Sz Fb) in Ez. eauto.
        -- destruct (D2 (Tk eq_refl R)) as (_ & b' & Eb' & F' & _).
           destruct (evolves_nth _ _ _ V2 k b' Eb') as (z & Ez & Sz). rewrite (settled_fixed _ _ _ _ Sz F') in Ez. eauto.
      * destruct I as [I|I]; [congruence|].
        assert (E1 : nth_error st1 j = Some x) by (apply D1; [exact Nk|exact Ej|symmetry; apply R]).
        apply (I4 j x I E1). destruct R as (R1 & R2 & R3). repeat split; try assumption; try apply R2.
        intros L1 U1 EL1 EU1. destruct (evolves_nth_back _ _ _ V _ _ EL1) as (L & EL & ((_ & _ & FL & _) & _)). destruct (evolves_nth_back _ _ _ V _ _ EU1) as (U & EU & ((_ & FU & _) & _)).
        rewrite FL, FU. apply R3; assumption.
  - specialize (IH st used W). destruct (stroke_loop s t st used) as [st' u]. destruct IH as (I1 & I2 & I3 & I4).
    repeat split; try assumption. intros j x [->|I] Ej R; [|apply (I4 j x); assumption].
    rewrite E in Ej. injection Ej as <-. destruct R as (R & _). rewrite R, eqb_reflx in H. discriminate.
Qed.

Lemma Forall2_imp {A B} (R S : A -> B -> Prop) l l' : (forall a b, R a b -> S a b) -> Forall2 R l l' -> Forall2 S l l'.
Proof. intros I H. induction H; constructor; auto. Qed.
(** The strokes afterwards: same strokes, marked when used. *)
Definition marked_ok (st st' : bs) (s s' : shape) : Prop :=
  s' = s \/ (sh_type s = R_UNDEFINED /\ s' = set_type s R_BORDER /\
             exists k b b', nth_error st k = Some b /\ bd_fin b = None /\ bd_h b = horizontal s /\ nth_error st' k = Some b' /\
               bd_fin b' = Some (across s) /\ bd_width b' = sh_width s /\ bd_color b' = sh_color s).
Lemma by_strokes_marks : forall ss st, well_formed st -> let '(st', ss') := by_strokes ss st in Forall2 (marked_ok st st') ss ss'.
Proof.
  induction ss as [|s t IH]; intros st W; cbn [by_strokes]; [constructor|].
  destruct (determined s) eqn:D.
  - specialize (IH st W). destruct (by_strokes t st) as [st' r]. constructor; [left; reflexivity|exact IH].
  - apply determined_false in D. pose proof (stroke_loop_used s (seq 0 (length st)) st false W) as Us.
    pose proof (stroke_loop_evolves s (seq 0 (length st)) st false W) as V.
    destruct (stroke_loop s (seq 0 (length st)) st false) as [st1 used]. cbn [fst] in V. pose proof (evolves_wf _ _ _ V W) as W1.
    specialize (IH st1 W1). pose proof (by_strokes_evolves t st1 W1) as V2. destruct (by_strokes t st1) as [st' r]. cbn [fst] in V2.
    constructor.
    + destruct used; [right|left; reflexivity]. split; [exact D|]. split; [reflexivity|].
      destruct Us as (_ & U & _). destruct (U eq_refl) as [X|(k & b & b' & E & H & N & E1 & F & Wd & C)]; [discriminate|].
      exists k, b, b'. repeat split; try assumption.
      destruct (evolves_nth _ _ _ V2 k b' E1) as (y & Ey & Sy). rewrite (settled_fixed _ _ _ _ Sy F) in Ey. exact Ey.
    + eapply Forall2_imp; [|exact IH]. intros a a' [->|(X1 & X2 & k & b & b' & E & N & Rest)]; [left; reflexivity|right].
      split; [exact X1|]. split; [exact X2|]. destruct (evolves_nth_back _ _ _ V k b E) as (x & Ex & Sx). pose proof (settled_open _ _ _ Sx N) as ->.
      exists k, x, b'. repeat split; try assumption; apply Rest.
Qed.
(** Where the position of a border comes from; a stroke of its direction which gave it is marked. *)
Definition given_by (ss ss' : list shape) (b b' : border) : Prop :=
  exists i s s' v, nth_error ss i = Some s /\ nth_error ss' i = Some s' /\ sh_type s = R_UNDEFINED /\ bd_fin b' = Some v /\
    from_stroke s b v (bd_width b') (bd_color b') /\ (horizontal s = bd_h b -> s' = set_type s R_BORDER).
Lemma by_strokes_given : forall ss st k b, well_formed st -> nth_error st k = Some b ->
  let '(st', ss') := by_strokes ss st in
  exists b', nth_error st' k = Some b' /\ (b' = b \/ (bd_fin b = None /\ given_by ss ss' b b')).
Proof.
  induction ss as [|s t IH]; intros st k b W E; cbn [by_strokes]; [exists b; split; [exact E|left; reflexivity]|].
  destruct (determined s) eqn:D.
  - specialize (IH st k b W E). destruct (by_strokes t st) as [st' r]. destruct IH as (b' & E' & [->|(N & i & s1 & s1' & v & G)]).
    + exists b. split; [exact E'|left; reflexivity].
    + exists b'. split; [exact E'|]. right. split; [exact N|]. exists (S i), s1, s1', v. exact G.
  - apply determined_false in D. pose proof (stroke_loop_used s (seq 0 (length st)) st false W) as Us.
    pose proof (stroke_loop_evolves s (seq 0 (length st)) st false W) as V.
    destruct (stroke_loop s (seq 0 (length st)) st false) as [st1 used]. cbn [fst] in V. pose proof (evolves_wf _ _ _ V W) as W1.
    destruct (evolves_nth _ _ _ V k b E) as (b1 & E1 & S1).
    specialize (IH st1 k b1 W1 E1). destruct (by_strokes t st1) as [st' r]. destruct IH as (b' & E' & G).
    destruct S1 as [Fr [->|(N & v & F & _ & _ & P)]].
    + exists b'. split; [exact E'|]. destruct G as [->|(N & i & s1 & s1' & v & G)]; [left; reflexivity|].
      right. split; [exact N|]. exists (S i), s1, s1', v. exact G.
    + destruct G as [->|(N1 & _)]; [|congruence]. exists b1. split; [exact E'|]. right. split; [exact N|].
      exists O, s. eexists. exists v. cbn. split; [reflexivity|]. split; [reflexivity|]. split; [exact D|]. split; [exact F|]. split; [exact P|].
      intros H. destruct Us as (_ & _ & U & _). destruct (U k b E (eq_sym H) N) as [X| ->]; [|reflexivity]. congruence.
Qed.
(** Priority of explicit strokes. *)
Lemma by_strokes_takes : forall ss st k b s, well_formed st -> nth_error st k = Some b -> In s ss -> sh_type s = R_UNDEFINED -> reaches st b s ->
  exists b' v, nth_error (fst (by_strokes ss st)) k = Some b' /\ bd_fin b' = Some v.
Proof.
  induction ss as [|s0 t IH]; intros st k b s W E I D R; [destruct I|]. cbn [by_strokes].
  destruct (determined s0) eqn:D0.
  - destruct I as [->|I]; [unfold determined in D0; rewrite D in D0; discriminate|].
    specialize (IH st k b s W E I D R). destruct (by_strokes t st) as [st' r]. exact IH.
  - pose proof (stroke_loop_used s0 (seq 0 (length st)) st false W) as Us.
    pose proof (stroke_loop_evolves s0 (seq 0 (length st)) st false W) as V.
    destruct (stroke_loop s0 (seq 0 (length st)) st false) as [st1 used]. cbn [fst] in V. pose proof (evolves_wf _ _ _ V W) as W1.
    pose proof (by_strokes_evolves t st1 W1) as V2.
    assert (Stay : forall b1 v, nth_error st1 k = Some b1 -> bd_fin b1 = Some v -> exists b' v, nth_error (fst (by_strokes t st1)) k = Some b' /\ bd_fin b' = Some v).
    { intros b1 v E1 F1. destruct (evolves_nth _ _ _ V2 k b1 E1) as (y & Ey & Sy). rewrite (settled_fixed _ _ _ _ Sy F1) in Ey. eauto. }
    assert (G : exists b' v, nth_error (fst (by_strokes t st1)) k = Some b' /\ bd_fin b' = Some v).
    { destruct I as [->|I].
      - destruct Us as (_ & _ & _ & U). destruct (U k b) as (b1 & v & E1 & F1); [|exact E|exact R|eapply Stay; eassumption].
        apply in_seq. assert (k < length st)%nat by (apply nth_error_Some; congruence). lia.
      - destruct (evolves_nth _ _ _ V k b E) as (b1 & E1 & S1). destruct (bd_fin b1) as [v|] eqn:F1; [eapply Stay; eassumption|].
        pose proof (settled_open _ _ _ S1 F1) as ->. eapply IH; try eassumption.
        destruct R as (R1 & R2 & R3). repeat split; try assumption; try apply R2.
        intros L1 U1 EL1 EU1. destruct (evolves_nth_back _ _ _ V _ _ EL1) as (L & EL & ((_ & _ & FL & _) & _)). destruct (evolves_nth_back _ _ _ V _ _ EU1) as (U & EU & ((_ & FU & _) & _)).
        rewrite FL, FU. apply R3; assumption. }
    destruct (by_strokes t st1) as [st' r]. exact G.
Qed.

(* ------------------------------------------------------------------ *)
(** * Layout *)
Lemma fin_at_evolves_open (P : border -> Q -> Q -> Z -> Prop) k v st : (forall b, nth_error st k = Some b -> bd_fin b = None -> P b v (bd_width b) (bd_color b)) -> evolves P st (fin_at k v st).
Proof.
  intros H. unfold fin_at. apply upd_at_evolves. intros b E. destruct (bd_fin b) as [u|] eqn:F.
  - unfold fin_value. rewrite F. apply settled_refl.
  - apply fin_value_settled. apply H; assumption.
Qed.
Lemma fin_marked_evolves (P : border -> Q -> Q -> Z -> Prop) st0 x : forall ks status st,
  (forall k b, In k ks -> nth_error st0 k = Some b -> bd_fin b = None -> P b x (bd_width b) (bd_color b)) ->
  evolves P st0 st -> evolves P st0 (fin_marked ks status x st).
Proof.
  induction ks as [|k t IH]; intros status st H V; cbn [fin_marked]; [exact V|]. destruct status as [|b s]; [exact V|].
  apply IH; [intros; eapply H; [right|..]; eassumption|]. destruct b; [|exact V].
  eapply evolves_trans; [exact V|]. apply fin_at_evolves_open. intros b E N.
  destruct (evolves_nth_back _ _ _ V k b E) as (b0 & E0 & S0). pose proof (settled_open _ _ _ S0 N) as ->. apply (H k); [left; reflexivity|exact E0|exact N].
Qed.
Lemma qdedup_In x l : In x (qdedup l) -> In x l.
Proof. induction l as [|y t IH]; cbn [qdedup]; [tauto|]. destruct (existsb (qeq y) t); intros H; [right; apply IH; exact H|]. destruct H as [->|H]; [left; reflexivity|right; apply IH; exact H]. Qed.
Lemma centers_In x : forall l, In x (centers l) -> exists a b, In a l /\ In b l /\ x = (a + b) / 2.
Proof.
  induction l as [|a t IH]; [intros []|]. destruct t as [|b t']; [intros []|]. intros [<-|H].
  - exists a, b. cbn. tauto.
  - destruct (IH H) as (p & q & I1 & I2 & E). exists p, q. split; [right; exact I1|]. split; [right; exact I2|exact E].
Qed.
Lemma end_points_In x l : In x (end_points l) -> exists b, In b l /\ (x = bd_lo b \/ x = bd_hi b).
Proof.
  unfold end_points, sort_key. intros H. apply py_sort_In in H. apply qdedup_In in H. apply in_flat_map in H. destruct H as (b & I & H).
  exists b. split; [exact I|]. cbn in H. intuition.
Qed.
Lemma candidates_In x status l : In (x, status) (candidates l) -> status = status_of l x /\ exists b1 b2 p q, In b1 l /\ In b2 l /\ (p = bd_lo b1 \/ p = bd_hi b1) /\ (q = bd_lo b2 \/ q = bd_hi b2) /\ x = (p + q) / 2.
Proof.
  unfold candidates, sort_key. intros H. apply py_sort_In in H. apply in_map_iff in H. destruct H as (y & E & H). injection E as -> <-.
  split; [reflexivity|]. apply centers_In in H. destruct H as (p & q & Ip & Iq & E). apply end_points_In in Ip. apply end_points_In in Iq.
  destruct Ip as (b1 & I1 & P1). destruct Iq as (b2 & I2 & P2). exists b1, b2, p, q. repeat split; assumption.
Qed.
Lemma pick_In {A} (b : A) ks st : In b (pick ks st) <-> exists k, In k ks /\ nth_error st k = Some b.
Proof.
  unfold pick. rewrite in_flat_map. split; intros (k & I & H); exists k; split; try exact I.
  - destruct (nth_error st k) as [x|]; [|destruct H]. destruct H as [->|[]]. reflexivity.
  - rewrite H. left. reflexivity.
Qed.
Lemma layout_loop_evolves (P : border -> Q -> Q -> Z -> Prop) ks st0 : forall cs cur st,
  (forall x status k b, In (x, status) cs -> In k ks -> nth_error st0 k = Some b -> bd_fin b = None -> P b x (bd_width b) (bd_color b)) ->
  evolves P st0 st -> evolves P st0 (layout_loop cs ks cur st).
Proof.
  induction cs as [|[x status] t IH]; intros cur st H V; cbn [layout_loop]; [exact V|].
  destruct (Nat.eqb _ _); [exact V|]. destruct (any2 cur status).
  - apply IH; [|exact V]. intros x0 s0 k b I. apply (H x0 s0). right. exact I.
  - apply IH; [intros x0 s0 k b I; apply (H x0 s0); right; exact I|]. apply fin_marked_evolves; [|exact V].
    intros k b I E N. apply (H x status k); try assumption. left. reflexivity.
Qed.
Lemma by_layout_evolves st0 h ks st : (forall k, In k ks -> exists b, nth_error st0 k = Some b /\ bd_fin b = None /\ bd_h b = h) ->
  evolves (from_layout st0) st0 st -> evolves (from_layout st0) st0 (by_layout ks st).
Proof.
  intros O V. unfold by_layout. apply layout_loop_evolves; [|exact V].
  intros x status k b C I E N. apply candidates_In in C. destruct C as (_ & b1 & b2 & p & q & I1 & I2 & P1 & P2 & X).
  apply pick_In in I1. apply pick_In in I2. destruct I1 as (k1 & K1 & E1). destruct I2 as (k2 & K2 & E2).
  destruct (O k I) as (b' & E' & _ & H). rewrite E in E'. injection E' as <-.
  destruct (O k1 K1) as (c1 & F1 & N1 & H1). destruct (O k2 K2) as (c2 & F2 & N2 & H2).
  destruct (evolves_nth _ _ _ V _ _ F1) as (y1 & Y1 & ((_ & L1 & U1 & _) & _)). rewrite E1 in Y1. injection Y1 as <-.
  destruct (evolves_nth _ _ _ V _ _ F2) as (y2 & Y2 & ((_ & L2 & U2 & _) & _)). rewrite E2 in Y2. injection Y2 as <-.
  split; [reflexivity|]. split; [reflexivity|]. exists c1, c2, p, q. rewrite <- L1, <- U1, <- L2, <- U2.
  repeat split; try assumption; try congruence; eapply nth_error_In; eassumption.
Qed.
Lemma open_borders_In h st k : In k (open_borders h st) <-> exists b, nth_error st k = Some b /\ bd_fin b = None /\ bd_ref b = false /\ bd_h b = h.
Proof.
  unfold open_borders. rewrite filter_In, in_seq. split.
  - intros [_ H]. destruct (nth_error st k) as [b|] eqn:E; [|discriminate]. exists b. destruct (bd_fin b) eqn:F; [discriminate|].
    apply andb_true_iff in H. destruct H as [H1 H2]. apply negb_true_iff in H1. apply eqb_prop in H2. repeat split; assumption.
  - intros (b & E & N & R & H). assert (k < length st)%nat by (apply nth_error_Some; congruence). split; [lia|]. rewrite E, N, R, H, eqb_reflx. reflexivity.
Qed.

(* ------------------------------------------------------------------ *)
(** * Reference borders added first *)
Lemma is_dir_app h st ds k : is_dir h st k -> is_dir h (st ++ ds) k.
Proof. intros (b & E & D). exists b. split; [|exact D]. rewrite nth_error_app1; [exact E|]. apply nth_error_Some. congruence. Qed.
Lemma wf_app st ds : well_formed st -> (forall b, In b ds -> is_dir (negb (bd_h b)) st (bd_l b) /\ is_dir (negb (bd_h b)) st (bd_u b)) -> well_formed (st ++ ds).
Proof.
  intros W H b I. apply in_app_or in I. destruct I as [I|I]; [destruct (W b I)|destruct (H b I)]; split; apply is_dir_app; assumption.
Qed.
Lemma v_sorted_In st k : In k (v_sorted st) -> is_dir false st k.
Proof.
  unfold v_sorted, sort_key. intros H. apply in_map_iff in H. destruct H as ([x k'] & E & H). cbn in E. subst k'. apply py_sort_In in H.
  apply in_flat_map in H. destruct H as (j & _ & H). destruct (nth_error st j) as [b|] eqn:E; [|destruct H]. destruct (bd_h b) eqn:D; [destruct H|].
  destruct H as [H|[]]. injection H as _ <-. exists b. split; assumption.
Qed.
Lemma neighbours_In a b : forall l, In (a, b) (neighbours l) -> In a l /\ In b l.
Proof.
  induction l as [|x t IH]; [intros []|]. destruct t as [|y t']; [intros []|]. intros [E|H]; [injection E as <- <-; cbn; tauto|].
  destruct (IH H). split; right; assumption.
Qed.
Lemma rdedup_In x l : In x (rdedup l) -> In x l.
Proof. induction l as [|y t IH]; cbn [rdedup]; [tauto|]. destruct (existsb (same_range y) t); intros H; [right; apply IH; exact H|]. destruct H as [->|H]; [left; reflexivity|right; apply IH; exact H]. Qed.
(** A dummy: a horizontal reference border with the range of an existing horizontal border,
    between two vertical borders. *)
Definition dummy_of (st : bs) (d : border) : Prop :=
  bd_h d = true /\ bd_fin d = None /\ bd_ref d = true /\ bd_width d = 0 /\ bd_color d = 0%Z /\
  is_dir false st (bd_l d) /\ is_dir false st (bd_u d) /\ exists b, In b st /\ bd_h b = true /\ bd_lo b = bd_lo d /\ bd_hi b = bd_hi d.
Lemma add_dummies_spec rorder st : (forall l, Permutation l (rorder l)) -> exists ds, add_dummies rorder st = st ++ ds /\ forall d, In d ds -> dummy_of st d.
Proof.
  intros Ho. unfold add_dummies. eexists. split; [reflexivity|]. intros d H. apply in_flat_map in H. destruct H as ([l r] & Hn & H). cbn [fst snd] in H.
  apply neighbours_In in Hn. destruct Hn as [Il Ir]. apply v_sorted_In in Il. apply v_sorted_In in Ir.
  unfold dummies in H. destruct (nth_error st l) as [a|]; [|destruct H]. destruct (nth_error st r) as [b|]; [|destruct H].
  destruct (_ && _); [destruct H|].
  destruct (nth_error st (bd_l a)); [|destruct H]. destruct (nth_error st (bd_l b)); [|destruct H]. destruct (nth_error st (bd_u a)); [|destruct H]. destruct (nth_error st (bd_u b)); [|destruct H].
  cbv zeta in H. apply in_flat_map in H. destruct H as ([p q] & Hr & H). destruct (_ || _); [destruct H|]. destruct H as [<-|[]].
  unfold dummy_of, new_border. cbn [bd_h bd_fin bd_ref bd_width bd_color bd_l bd_u bd_lo bd_hi fst snd]. repeat (split; [reflexivity || assumption|]).
  apply (Permutation_in _ (Permutation_sym (Ho _))) in Hr. apply rdedup_In in Hr. apply in_map_iff in Hr. destruct Hr as (x & E & I). injection E as <- <-.
  apply filter_In in I. exists x. repeat split; apply I.
Qed.
Lemma dummy_wf st ds : well_formed st -> (forall d, In d ds -> dummy_of st d) -> well_formed (st ++ ds).
Proof. intros W H. apply wf_app; [exact W|]. intros d I. destruct (H d I) as (D & _ & _ & _ & _ & D1 & D2 & _). rewrite D. split; assumption. Qed.

(* ------------------------------------------------------------------ *)
(** * finalize *)
Definition why (strokes fills : list shape) (st3 : bs) (b : border) (v w : Q) (c : Z) : Prop :=
  from_strokes strokes b v w c \/ from_strokes (flat_map fill_strokes fills) b v w c \/ from_layout st3 b v w c.
Lemma finalize_spec rorder strokes fills st : (forall l, Permutation l (rorder l)) -> well_formed st ->
  exists ds st1 st3, (forall d, In d ds -> dummy_of st d) /\
    st1 = fst (by_strokes strokes (st ++ ds)) /\ snd (finalize rorder strokes fills st) = snd (by_strokes strokes (st ++ ds)) /\
    st3 = fst (by_strokes (flat_map fill_strokes fills) st1) /\
    evolves (from_strokes strokes) (st ++ ds) st1 /\ evolves (from_strokes (flat_map fill_strokes fills)) st1 st3 /\
    evolves (from_layout st3) st3 (fst (finalize rorder strokes fills st)).
Proof.
  intros Ho W. destruct (add_dummies_spec rorder st Ho) as (ds & E & D). pose proof (dummy_wf st ds W D) as W0.
  exists ds. unfold finalize. rewrite E.
  pose proof (by_strokes_evolves strokes (st ++ ds) W0) as V1. destruct (by_strokes strokes (st ++ ds)) as [st1 ss']. cbn [fst snd] in *.
  pose proof (evolves_wf _ _ _ V1 W0) as W1. pose proof (by_strokes_evolves (flat_map fill_strokes fills) st1 W1) as V2.
  destruct (by_strokes (flat_map fill_strokes fills) st1) as [st3 ss3] eqn:B3. cbn [fst snd] in *.
  exists st1, st3. split; [exact D|]. split; [reflexivity|]. split; [reflexivity|]. split; [rewrite B3; reflexivity|]. split; [exact V1|]. split; [exact V2|].
  apply by_layout_evolves with (h := false).
  { intros k I. apply open_borders_In in I. destruct I as (b & Eb & N & _ & H). exists b. repeat split; assumption. }
  apply by_layout_evolves with (h := true).
  { intros k I. apply open_borders_In in I. destruct I as (b & Eb & N & _ & H). exists b. repeat split; assumption. }
  apply evolves_refl.
Qed.
(** Combined history of one border. *)
Lemma three_steps P1 P2 P3 a b c d : settled P1 a b -> settled P2 b c -> settled P3 c d ->
  settled (fun x v w k => P1 x v w k \/ P2 x v w k \/ P3 x v w k) a d.
Proof.
  intros S1 S2 S3. eapply settled_trans; [eapply settled_weaken; [|exact S1]|eapply settled_trans; [eapply settled_weaken; [|exact S2]|eapply settled_weaken; [|exact S3]]]; cbn; tauto.
Qed.
Lemma evolves_three P1 P2 P3 a b c d : evolves P1 a b -> evolves P2 b c -> evolves P3 c d -> evolves (fun x v w k => P1 x v w k \/ P2 x v w k \/ P3 x v w k) a d.
Proof.
  intros V1 V2 V3. eapply evolves_trans; [eapply evolves_weaken; [|exact V1]|eapply evolves_trans; [eapply evolves_weaken; [|exact V2]|eapply evolves_weaken; [|exact V3]]]; cbn; tauto.
Qed.
Lemma value_near P b b' : settled P b b' -> bd_fin b = None -> bd_lo b <= bd_hi b -> near_range b (bd_value b').
Proof.
  intros [_ [->|(N & v & E & R & _)]] N0 L; unfold bd_value.
  - rewrite N0. unfold near_range. setoid_replace ((bd_lo b + bd_hi b) / 2) with ((1#2) * (bd_lo b + bd_hi b)) by field. split; lra.
  - rewrite E. exact R.
Qed.
(** A history of requests keeps every finalised border as it is. *)
Definition anything (b : border) (v w : Q) (c : Z) : Prop := True.
Lemma evolves_any P a b : evolves P a b -> evolves anything a b.
Proof. apply evolves_weaken. intros. exact I. Qed.
Lemma fin_stroke_any k s st : evolves anything st (fst (fin_stroke k s st)).
Proof.
  unfold fin_stroke. destruct (nth_error st k) as [b|] eqn:E; [|apply evolves_refl]. cbv zeta.
  destruct (negb _); [apply evolves_refl|].
  destruct (nth_error st (bd_l b)); [|apply evolves_refl]. destruct (nth_error st (bd_u b)); [|apply evolves_refl]. destruct (_ && _); [apply evolves_refl|]. cbn [fst].
  eapply evolves_trans; [|eapply evolves_trans; apply fin_at_evolves; intros; exact I].
  destruct (snd _) eqn:D; [|apply evolves_refl]. apply fin_value_true in D. destruct D as [N R]. apply upd_at_evolves. intros b' E'. rewrite E in E'. injection E' as <-.
  destruct (fin_value_fixed b _ N R) as [-> _]. unfold set_style. cbn. split; [repeat split|right]. split; [exact N|]. eexists. cbn. split; [reflexivity|]. split; [exact R|]. split; [reflexivity|exact I].
Qed.
Lemma serve_any st r : evolves anything st (serve st r).
Proof.
  destruct r as [k v|k s|ks]; cbn [serve].
  - apply fin_at_evolves. intros. exact I.
  - apply fin_stroke_any.
  - unfold by_layout. apply layout_loop_evolves; [intros; exact I|apply evolves_refl].
Qed.
Lemma serve_all_any rs : forall st, evolves anything st (fold_left serve rs st).
Proof. induction rs as [|r t IH]; intros st; cbn [fold_left]; [apply evolves_refl|]. eapply evolves_trans; [apply serve_any|apply IH]. Qed.
