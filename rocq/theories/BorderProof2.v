From Verif Require Import BorderSpec PySort GeomProof TableProof GraphProof BorderProof.
Open Scope Q_scope.

(* ------------------------------------------------------------------ *)
(** * Which borders the layout step leaves open *)
Lemma any2_true a : forall b, any2 a b = true <-> exists i, nth_error a i = Some true /\ nth_error b i = Some true.
Proof.
  induction a as [|x s IH]; intros [|y t]; cbn [any2].
  - split; [discriminate|]. intros (i & E & _). destruct i; discriminate.
  - split; [discriminate|]. intros (i & E & _). destruct i; discriminate.
  - split; [discriminate|]. intros (i & _ & E). destruct i; discriminate.
  - rewrite orb_true_iff, andb_true_iff, IH. split.
    + intros [[-> ->]|(i & E)]; [exists O; split; reflexivity|exists (S i); exact E].
    + intros ([|i] & E1 & E2); cbn in *; [left; split; congruence|right; exists i; split; assumption].
Qed.
Lemma or2_length a : forall b, length a = length b -> length (or2 a b) = length a.
Proof. induction a as [|x s IH]; intros [|y t] H; cbn in *; try reflexivity; try discriminate. f_equal. apply IH. lia. Qed.
Lemma or2_nth a : forall b i x y, nth_error a i = Some x -> nth_error b i = Some y -> nth_error (or2 a b) i = Some (x || y).
Proof.
  induction a as [|p s IH]; intros [|q t] [|i] x y; cbn; try discriminate; intros E1 E2; [congruence|]. apply IH; assumption.
Qed.
Lemma count_le l : (count l <= length l)%nat.
Proof. induction l as [|b t IH]; cbn; [lia|]. destruct b; lia. Qed.
Lemma count_full l : count l = length l -> forall i b, nth_error l i = Some b -> b = true.
Proof.
  induction l as [|b t IH]; intros H [|i] x E; cbn in *; try discriminate.
  - injection E as <-. pose proof (count_le t). destruct b; [reflexivity|lia].
  - apply (IH) with (i := i); [|exact E]. pose proof (count_le t). destruct b; lia.
Qed.
Lemma fin_marked_nth x : forall ks status st i k b, NoDup ks -> nth_error ks i = Some k -> nth_error status i = Some b ->
  nth_error (fin_marked ks status x st) k = nth_error (if b then fin_at k x st else st) k.
Proof.
  assert (Out : forall ks status st k, ~ In k ks -> nth_error (fin_marked ks status x st) k = nth_error st k).
  { induction ks as [|j t IH]; intros [|s ss] st k N; cbn [fin_marked]; try reflexivity.
    rewrite IH by (intros I; apply N; right; exact I). destruct s; [|reflexivity]. apply fin_at_nth_other. intros ->. apply N. left. reflexivity. }
  induction ks as [|j t IH]; intros [|s ss] st [|i] k b ND E1 E2; cbn [fin_marked nth_error] in *; try discriminate.
  - injection E1 as ->. injection E2 as ->. inversion ND; subst. rewrite Out by assumption. reflexivity.
  - inversion ND as [|? ? Nj ND']; subst. rewrite (IH ss _ i k b ND' E1 E2).
    assert (k <> j) by (intros ->; apply Nj; eapply nth_error_In; exact E1).
    destruct s; [|reflexivity]. destruct b.
    + unfold fin_at. rewrite !upd_at_nth. rewrite Nat.eqb_refl. replace (Nat.eqb k j) with false by (symmetry; apply Nat.eqb_neq; assumption). reflexivity.
    + apply fin_at_nth_other. assumption.
Qed.
Definition fixed_at (st : bs) (k : nat) : Prop := exists b v, nth_error st k = Some b /\ bd_fin b = Some v.
Lemma fixed_evolves P a b k : evolves P a b -> fixed_at a k -> fixed_at b k.
Proof. intros V (x & v & E & F). destruct (evolves_nth _ _ _ V k x E) as (y & Ey & Sy). rewrite (settled_fixed _ _ _ _ Sy F) in Ey. exists x, v. split; assumption. Qed.
Section Layout.
Variables (ks : list nat) (st : bs).
Hypothesis ND : NoDup ks.
Hypothesis Open : forall k, In k ks -> exists b, nth_error st k = Some b /\ bd_fin b = None.
Lemma pick_nth : forall l, (forall k, In k l -> exists b, nth_error st k = Some b) -> forall i k b, nth_error l i = Some k -> nth_error st k = Some b -> nth_error (pick l st) i = Some b.
Proof.
  induction l as [|j t IH]; intros H [|i] k b E1 E2; cbn in *; try discriminate.
  - injection E1 as ->. rewrite E2. reflexivity.
  - destruct (H j (or_introl eq_refl)) as (bj & Ej). rewrite Ej. cbn. eapply IH; [|exact E1|exact E2]. intros. apply H. right. assumption.
Qed.
Lemma pick_length : forall l, (forall k, In k l -> exists b, nth_error st k = Some b) -> length (pick l st) = length l.
Proof.
  induction l as [|j t IH]; intros H; [reflexivity|]. unfold pick. cbn [flat_map]. destruct (H j (or_introl eq_refl)) as (bj & Ej). rewrite Ej. cbn [app length].
  f_equal. apply IH. intros. apply H. right. assumption.
Qed.
Lemma Valid k : In k ks -> exists b, nth_error st k = Some b.
Proof. intros I. destruct (Open k I) as (b & E & _). exists b. exact E. Qed.
Lemma layout_loop_open : forall cs cur st1,
  (forall c, In c cs -> snd c = status_of (pick ks st) (fst c)) ->
  length cur = length ks -> evolves anything st st1 ->
  (forall i k, nth_error ks i = Some k -> (nth_error cur i = Some true <-> fixed_at st1 k)) ->
  forall k b, In k ks -> nth_error st k = Some b -> nth_error (layout_loop cs ks cur st1) k = Some b ->
  forall x status, In (x, status) cs -> near_range b x ->
  exists k' b', In k' ks /\ k' <> k /\ nth_error st k' = Some b' /\ near_range b' x /\ fixed_at (layout_loop cs ks cur st1) k'.
Proof.
  induction cs as [|[x0 s0] t IH]; intros cur st1 HS Hl V Inv k b Ik Eb Ef x status Ic R; [destruct Ic|].
  destruct (Open k Ik) as (b0 & Eb0 & N). rewrite Eb in Eb0. injection Eb0 as <-.
  destruct (In_nth_error _ _ Ik) as [i Ei].
  assert (Hi : (i < length ks)%nat) by (apply nth_error_Some; congruence).
  assert (Cur : exists c, nth_error cur i = Some c) by (destruct (nth_error cur i) eqn:X; [eauto|apply nth_error_None in X; lia]). destruct Cur as (c & Ec).
  pose proof (HS (x0, s0) (or_introl eq_refl)) as Hs0. cbn [fst snd] in Hs0.
  assert (NotFixed : forall st2, nth_error st2 k = Some b -> ~ fixed_at st2 k) by (intros st2 E2 (y & v & E3 & F3); rewrite E2 in E3; injection E3 as <-; congruence).
  assert (Ls0 : length s0 = length ks) by (rewrite Hs0; unfold status_of; rewrite map_length; apply pick_length; apply Valid).
  cbn [layout_loop] in *.
  destruct (Nat.eqb (count cur) (length ks)) eqn:Full.
  { apply Nat.eqb_eq in Full. rewrite <- Hl in Full. exfalso. apply (NotFixed st1 Ef). apply (Inv i k Ei). rewrite Ec. f_equal. eapply count_full; eassumption. }
  destruct (any2 cur s0) eqn:Any.
  - destruct Ic as [E|Ic].
    + injection E as -> ->. apply any2_true in Any. destruct Any as (j & Ej1 & Ej2).
      assert (Hj : (j < length ks)%nat) by (rewrite <- Hl; apply nth_error_Some; congruence).
      destruct (nth_error ks j) as [k'|] eqn:Ej; [|apply nth_error_None in Ej; lia].
      destruct (Valid k' (nth_error_In _ _ Ej)) as (b' & Eb').
      assert (Fx : fixed_at st1 k') by (apply (Inv j k' Ej); exact Ej1).
      assert (Fx' : fixed_at (layout_loop t ks cur st1) k') by (eapply fixed_evolves; [|exact Fx]; apply (layout_loop_evolves anything ks st1); [intros; exact I|apply evolves_refl]).
      exists k', b'. split; [eapply nth_error_In; exact Ej|]. split; [intros ->; apply (NotFixed _ Ef); exact Fx'|]. split; [exact Eb'|]. split; [|exact Fx'].
      rewrite Hs0 in Ej2. unfold status_of in Ej2. rewrite nth_error_map, (pick_nth ks Valid j k' b' Ej Eb') in Ej2. cbn in Ej2. apply bd_valid_iff. congruence.
    + eapply IH; try eassumption. intros c' I'. apply HS. right. exact I'.
  - assert (V' : evolves anything st (fin_marked ks s0 x0 st1)) by (apply fin_marked_evolves; [intros; exact I|exact V]).
    assert (Inv' : forall j k', nth_error ks j = Some k' -> (nth_error (or2 cur s0) j = Some true <-> fixed_at (fin_marked ks s0 x0 st1) k')).
    { intros j k' Ej. assert (Hj : (j < length ks)%nat) by (apply nth_error_Some; congruence).
      destruct (nth_error cur j) as [cj|] eqn:Ecj; [|apply nth_error_None in Ecj; lia].
      destruct (nth_error s0 j) as [sj|] eqn:Esj; [|apply nth_error_None in Esj; lia].
      rewrite (or2_nth _ _ _ _ _ Ecj Esj). pose proof (fin_marked_nth x0 ks s0 st1 j k' sj ND Ej Esj) as Fm.
      destruct (Valid k' (nth_error_In _ _ Ej)) as (b' & Eb'). destruct (evolves_nth _ _ _ V k' b' Eb') as (y & Ey & Sy).
      specialize (Inv j k' Ej). rewrite Ecj in Inv.
      destruct sj.
      - rewrite orb_true_r. split; [intros _|reflexivity].
        assert (cj = false) by (destruct cj; [|reflexivity]; exfalso; assert (any2 cur s0 = true) by (apply any2_true; exists j; split; assumption); congruence). subst cj.
        assert (Ny : bd_fin y = None). { destruct (bd_fin y) as [v|] eqn:Fy; [|reflexivity]. exfalso. assert (X : Some false = Some true) by (apply Inv; exists y, v; split; assumption). discriminate. }
        pose proof (settled_open _ _ _ Sy Ny) as ->.
        rewrite Hs0 in Esj. unfold status_of in Esj. rewrite nth_error_map, (pick_nth ks Valid j k' b' Ej Eb') in Esj. cbn in Esj.
        assert (Rb : near_range b' x0) by (apply bd_valid_iff; congruence).
        unfold fixed_at. rewrite Fm. unfold fin_at. rewrite upd_at_nth, Nat.eqb_refl, Ey. cbn [option_map]. eexists. exists x0. split; [reflexivity|].
        destruct (fin_value_fixed b' x0 Ny Rb) as [-> _]. reflexivity.
      - rewrite orb_false_r. unfold fixed_at in *. rewrite Fm. exact Inv. }
    destruct Ic as [E|Ic].
    + injection E as -> ->. exfalso. apply (NotFixed _ Ef).
      eapply fixed_evolves; [apply (layout_loop_evolves anything ks (fin_marked ks status x st1)); [intros; exact I|apply evolves_refl]|].
      apply (Inv' i k Ei). destruct (nth_error status i) as [si|] eqn:Esi; [|apply nth_error_None in Esi; lia].
      assert (si = true). { rewrite Hs0 in Esi. unfold status_of in Esi. rewrite nth_error_map, (pick_nth ks Valid i k b Ei Eb) in Esi. cbn in Esi. apply bd_valid_iff in R. congruence. } subst si.
      rewrite (or2_nth _ _ _ _ _ Ec Esi). rewrite orb_true_r. reflexivity.
    + eapply IH; try eassumption.
      * intros c' I'. apply HS. right. exact I'.
      * rewrite or2_length; [exact Hl|]. congruence.
Qed.
Lemma by_layout_open k b : In k ks -> nth_error st k = Some b -> nth_error (by_layout ks st) k = Some b ->
  forall x status, In (x, status) (candidates (pick ks st)) -> near_range b x ->
  exists k' b', In k' ks /\ k' <> k /\ nth_error st k' = Some b' /\ near_range b' x /\ fixed_at (by_layout ks st) k'.
Proof.
  intros Ik Eb Ef. unfold by_layout in *. apply layout_loop_open; try assumption.
  - intros [x s] I. apply candidates_In in I. cbn. apply I.
  - apply map_length.
  - apply evolves_refl.
  - intros i j Ej. rewrite nth_error_map, Ej. cbn. split; [discriminate|]. intros (y & v & E & F). destruct (Open j (nth_error_In _ _ Ej)) as (z & Ez & Nz). congruence.
Qed.
End Layout.

(** A range of positive length contains a candidate position. *)
Lemma qdedup_has l : forall x, In x l -> exists y, In y (qdedup l) /\ y == x.
Proof.
  induction l as [|z t IH]; intros x H; [destruct H|]. cbn [qdedup]. destruct (existsb (qeq z) t) eqn:E.
  - destruct H as [->|H]; [|apply IH; exact H].
    apply existsb_exists in E. destruct E as (w & Iw & Ew). apply qeq_iff in Ew. destruct (IH w Iw) as (y & Iy & Ey).
    exists y. split; [exact Iy|]. rewrite Ey, Ew. reflexivity.
  - destruct H as [->|H]; [exists x; split; [left; reflexivity|reflexivity]|]. destruct (IH x H) as (y & Iy & Ey). exists y. split; [right; exact Iy|exact Ey].
Qed.
Lemma sort1_sorted {A} (f : A -> Q) l : StronglySorted (fun a b => f a <= f b) (sort_key (fun x => [f x]) l).
Proof.
  unfold sort_key. pose proof (py_sort_sorted (fun a b => lex_le [f a] [f b]) (fun x y => lex_le_total _ _) (fun x y z => lex_le_trans _ _ _) l) as S.
  induction S as [|a t _ IH F]; constructor; [exact IH|]. rewrite Forall_forall in *. intros x Hx.
  specialize (F x Hx). cbn [lex_le] in F. qcases; try discriminate; lra.
Qed.
Lemma centers_between l : StronglySorted (fun a b => a <= b) l -> forall a b, In a l -> In b l -> a < b -> exists c, In c (centers l) /\ a <= c <= b.
Proof.
  induction l as [|x t IH]; intros S a b Ia Ib L; [destruct Ia|]. inversion S as [|? ? S' F]; subst. rewrite Forall_forall in F.
  destruct t as [|y t'].
  { destruct Ia as [->|[]]. destruct Ib as [->|[]]. lra. }
  destruct Ia as [->|Ia].
  - destruct Ib as [->|Ib]; [lra|].
    destruct (Qlt_le_dec a y) as [Ly|Ly].
    + exists ((a + y) / 2). split; [left; reflexivity|]. setoid_replace ((a + y) / 2) with ((1#2) * (a + y)) by field.
      assert (y <= b). { destruct Ib as [->|Ib]; [lra|]. inversion S' as [|? ? _ F']; subst. rewrite Forall_forall in F'. apply F'. exact Ib. }
      split; lra.
    + destruct (IH S' y b (or_introl eq_refl) Ib) as (c & Ic & Hc); [lra|]. exists c. split; [right; exact Ic|].
      assert (a <= y) by (apply F; left; reflexivity). split; lra.
  - destruct Ib as [->|Ib]; [pose proof (F a Ia); lra|]. destruct (IH S' a b Ia Ib L) as (c & Ic & Hc). exists c. split; [right; exact Ic|exact Hc].
Qed.
Lemma candidate_in_range l b : In b l -> bd_lo b < bd_hi b -> exists x status, In (x, status) (candidates l) /\ bd_lo b <= x <= bd_hi b.
Proof.
  intros Ib L. set (pts := flat_map (fun b => [bd_lo b; bd_hi b]) l).
  assert (Il : In (bd_lo b) pts) by (apply in_flat_map; exists b; split; [exact Ib|left; reflexivity]).
  assert (Iu : In (bd_hi b) pts) by (apply in_flat_map; exists b; split; [exact Ib|right; left; reflexivity]).
  destruct (qdedup_has pts _ Il) as (p & Ip & Ep). destruct (qdedup_has pts _ Iu) as (q & Iq & Eq).
  assert (S : StronglySorted (fun a b => a <= b) (end_points l)) by apply (sort1_sorted (fun x : Q => x)).
  destruct (centers_between _ S p q) as (c & Ic & Hc); [apply py_sort_In; exact Ip|apply py_sort_In; exact Iq|lra|].
  exists c, (status_of l c). split; [|lra]. unfold candidates, sort_key. apply py_sort_In. apply in_map_iff. exists c. split; [reflexivity|exact Ic].
Qed.
(** Ranges far apart: everything is finalised. *)
Lemma by_layout_complete ks st : NoDup ks -> (forall k, In k ks -> exists b, nth_error st k = Some b /\ bd_fin b = None) ->
  (forall k b, In k ks -> nth_error st k = Some b -> bd_lo b < bd_hi b) ->
  (forall k k' b b', In k ks -> In k' ks -> k <> k' -> nth_error st k = Some b -> nth_error st k' = Some b' -> bd_hi b + 2 < bd_lo b' \/ bd_hi b' + 2 < bd_lo b) ->
  forall k, In k ks -> fixed_at (by_layout ks st) k.
Proof.
  intros ND Op Pos Far k Ik. destruct (Op k Ik) as (b & Eb & N).
  assert (V : evolves anything st (by_layout ks st)) by (unfold by_layout; apply layout_loop_evolves; [intros; exact I|apply evolves_refl]).
  destruct (evolves_nth _ _ _ V k b Eb) as (y & Ey & Sy). destruct (bd_fin y) as [v|] eqn:Fy; [exists y, v; split; assumption|].
  pose proof (settled_open _ _ _ Sy Fy) as ->.
  destruct (candidate_in_range (pick ks st) b) as (x & s & Ic & Hx); [apply pick_In; exists k; split; assumption|eapply Pos; eassumption|].
  assert (R : near_range b x) by (unfold near_range; split; lra).
  destruct (by_layout_open ks st ND Op k b Ik Eb Ey x s Ic R) as (k' & b' & Ik' & Nk & Eb' & R' & _).
  exfalso. unfold near_range in *. destruct (Far k k' b b' Ik Ik' (not_eq_sym Nk) Eb Eb'); lra.
Qed.

(* ------------------------------------------------------------------ *)
(** * Candidate borders *)
Lemma same_frame_ref b r : same_frame b (set_ref b r). Proof. repeat split. Qed.
(** [st'] continues [st]: old borders keep everything but the reference flag (which only
    goes from true to false). *)
Definition continues (st st' : bs) : Prop :=
  forall k b, nth_error st k = Some b -> exists b', nth_error st' k = Some b' /\ (b' = b \/ b' = set_ref b false).
Lemma continues_refl st : continues st st. Proof. intros k b E. exists b. auto. Qed.
Lemma continues_trans a b c : continues a b -> continues b c -> continues a c.
Proof.
  intros H1 H2 k x E. destruct (H1 k x E) as (y & Ey & Hy). destruct (H2 k y Ey) as (z & Ez & Hz). exists z. split; [exact Ez|].
  destruct Hy as [->| ->], Hz as [->| ->]; auto.
Qed.
Lemma continues_app st ds : continues st (st ++ ds).
Proof. intros k b E. exists b. split; [|left; reflexivity]. rewrite nth_error_app1; [exact E|]. apply nth_error_Some. congruence. Qed.
Lemma continues_ref k st : continues st (upd_at k (fun b => set_ref b false) st).
Proof. intros j b E. rewrite upd_at_nth, E. destruct (Nat.eqb j k); eexists; split; try reflexivity; auto. Qed.
Lemma continues_refs ks : forall st, continues st (fold_left (fun s k => upd_at k (fun b => set_ref b false) s) ks st).
Proof. induction ks as [|k t IH]; intros st; cbn [fold_left]; [apply continues_refl|]. eapply continues_trans; [apply continues_ref|apply IH]. Qed.
Lemma continues_dir st st' h k : continues st st' -> is_dir h st k -> is_dir h st' k.
Proof. intros C (b & E & D). destruct (C k b E) as (b' & E' & [->| ->]); eexists; split; try exact E'; exact D. Qed.
Definition sound (st : bs) : Prop := well_formed st /\ untouched st.
Lemma sound_refs ks : forall st, sound st -> sound (fold_left (fun s k => upd_at k (fun b => set_ref b false) s) ks st).
Proof.
  induction ks as [|k t IH]; intros st H; cbn [fold_left]; [exact H|]. apply IH. destruct H as [W U].
  assert (G : forall b, In b (upd_at k (fun b => set_ref b false) st) -> exists x, In x st /\ (b = x \/ b = set_ref x false)).
  { intros b I. apply In_nth_error in I. destruct I as [j E]. rewrite upd_at_nth in E. destruct (Nat.eqb j k).
    - destruct (nth_error st j) as [x|] eqn:Ex; [|discriminate]. cbn in E. injection E as <-. exists x. split; [eapply nth_error_In; exact Ex|right; reflexivity].
    - exists b. split; [eapply nth_error_In; exact E|left; reflexivity]. }
  split.
  - intros b I. destruct (G b I) as (x & Ix & Hx). destruct (W x Ix) as [D1 D2]. pose proof (continues_ref k st) as C.
    destruct Hx as [->| ->]; cbn [set_ref bd_h bd_l bd_u]; split; eapply continues_dir; eassumption.
  - intros b I. destruct (G b I) as (x & Ix & [->| ->]); apply (U x Ix).
Qed.
Lemma sound_app st h lo hi l u r : sound st -> is_dir (negb h) st l -> is_dir (negb h) st u -> sound (st ++ [new_border h lo hi l u r]).
Proof.
  intros [W U] D1 D2. split.
  - apply wf_app; [exact W|]. intros b [<-|[]]. cbn. split; assumption.
  - intros b I. apply in_app_or in I. destruct I as [I|[<-|[]]]; [apply U; exact I|]. repeat split.
Qed.
Lemma is_dir_new st h lo hi l u r : is_dir h (st ++ [new_border h lo hi l u r]) (length st).
Proof. eexists. rewrite nth_error_app2, Nat.sub_diag by lia. split; reflexivity. Qed.
(** What a recursive call has to preserve. *)
Definition good_rec (rec : list elem -> nat -> nat -> nat -> nat -> bs -> bs) : Prop :=
  forall ls T B L R st, sound st -> is_dir true st T -> is_dir true st B -> is_dir false st L -> is_dir false st R ->
    sound (rec ls T B L R st) /\ continues st (rec ls T B L R st).
Lemma rows_loop_good rec ref : good_rec rec -> forall rows top B L R st, sound st -> is_dir true st top -> is_dir true st B -> is_dir false st L -> is_dir false st R ->
  sound (rows_loop rec ref rows top B L R st) /\ continues st (rows_loop rec ref rows top B L R st).
Proof.
  intros G. induction rows as [|r rest IH]; intros top B L R st S Dt DB DL DR; cbn [rows_loop]; [split; [exact S|apply continues_refl]|].
  destruct rest as [|r' rest']; [apply G; assumption|].
  set (nb := new_border true (ry1 (coll_bbox r)) (ry0 (coll_bbox r')) L R ref).
  assert (C1 : continues st (st ++ [nb])) by apply continues_app.
  assert (S1 : sound (st ++ [nb])) by (apply sound_app; assumption).
  destruct (G r top (length st) L R (st ++ [nb])) as [S2 C2]; try exact S1; try (eapply continues_dir; [exact C1|assumption]).
  { apply is_dir_new. }
  pose proof (continues_trans _ _ _ C1 C2) as C.
  destruct (IH (length st) B L R (rec r top (length st) L R (st ++ [nb]))) as [S3 C3]; try exact S2; try (eapply continues_dir; [exact C|assumption]).
  { eapply continues_dir; [exact C2|]. apply is_dir_new. }
  split; [exact S3|eapply continues_trans; eassumption].
Qed.
Section Order.
Variable order : list nat -> list nat.
Lemma cols_loop_good rec ref : good_rec rec -> forall cols T B left R st, sound st -> is_dir true st T -> is_dir true st B -> is_dir false st left -> is_dir false st R ->
  sound (cols_loop order rec ref cols T B left R st) /\ continues st (cols_loop order rec ref cols T B left R st).
Proof.
  intros G. induction cols as [|c rest IH]; intros T B left R st S DT DB Dl DR; cbn [cols_loop]; [split; [exact S|apply continues_refl]|].
  cbv zeta.
  assert (Step : forall right st1, sound st1 -> continues st st1 -> is_dir false st1 right ->
     let st2 := if Nat.eqb (length (group_by_rows order c)) 1 then st1 else rows_loop rec ref (group_by_rows order c) T B left right st1 in
     sound (cols_loop order rec ref rest T B right R st2) /\ continues st (cols_loop order rec ref rest T B right R st2)).
  { intros right st1 S1 C1 Dr. cbv zeta.
    assert (H : sound (if Nat.eqb (length (group_by_rows order c)) 1 then st1 else rows_loop rec ref (group_by_rows order c) T B left right st1) /\
                continues st1 (if Nat.eqb (length (group_by_rows order c)) 1 then st1 else rows_loop rec ref (group_by_rows order c) T B left right st1)).
    { destruct (Nat.eqb _ _); [split; [exact S1|apply continues_refl]|]. apply rows_loop_good; try assumption; eapply continues_dir; eassumption. }
    destruct H as [S2 C2]. pose proof (continues_trans _ _ _ C1 C2) as C.
    destruct (IH T B right R _ S2) as [S3 C3]; try (eapply continues_dir; [exact C|assumption]).
    { eapply continues_dir; [exact C2|exact Dr]. }
    split; [exact S3|eapply continues_trans; eassumption]. }
  destruct rest as [|c' rest'].
  - apply Step; [exact S|apply continues_refl|exact DR].
  - apply Step; [apply sound_app; assumption|apply continues_app|apply is_dir_new].
Qed.
Lemma inner_good : forall fuel, good_rec (inner order fuel).
Proof.
  induction fuel as [|f IH]; intros ls T B L R st S DT DB DL DR; cbn [inner]; [split; [exact S|apply continues_refl]|].
  cbv zeta. match goal with |- sound (cols_loop _ _ _ _ _ _ _ _ ?x) /\ _ => set (st1 := x) end.
  assert (H : sound st1 /\ continues st st1).
  { unfold st1. destruct (Nat.leb _ _); [|split; [exact S|apply continues_refl]]. split; [apply sound_refs; exact S|apply continues_refs]. }
  destruct H as [S1 C1]. destruct (cols_loop_good (inner order f) (Nat.leb (length (group_by_columns order ls)) 2) IH (group_by_columns order ls) T B L R st1) as [S2 C2]; try assumption; try (eapply continues_dir; eassumption).
  split; [exact S2|eapply continues_trans; eassumption].
Qed.
Lemma outer_sound a b : sound (outer_borders a b).
Proof.
  split.
  - intros x I. cbn in I. destruct I as [<-|[<-|[<-|[<-|[]]]]]; cbn; split; eexists; split; reflexivity.
  - intros x I. cbn in I. destruct I as [<-|[<-|[<-|[<-|[]]]]]; repeat split.
Qed.
End Order.

(* ------------------------------------------------------------------ *)
(** * The recursion ends: the number of lines is enough fuel *)
Section Fuel.
Variable order : list nat -> list nat.
Hypothesis Ho : forall l, Permutation l (order l).
Lemma groups_of_spec f l : Permutation (concat (groups_of order f l)) l /\ (forall g, In g (groups_of order f l) -> g <> []).
Proof.
  unfold groups_of. destruct (group_perm f order Ho l) as (gs & E & P). rewrite E. split; [exact P|].
  destruct (group_indexes_spec f order Ho l) as (gi & E1 & _ & C & N & _). unfold group in E. rewrite E1 in E. injection E as <-.
  intros g I X. apply in_map_iff in I. destruct I as (grp & <- & I). specialize (N grp I). destruct grp as [|i t]; [congruence|].
  assert (L : (i < length l)%nat) by (apply C; apply in_concat; exists (i :: t); split; [exact I|left; reflexivity]).
  cbn [flat_map] in X. unfold item_at in X at 1. destruct (nth_error l i) eqn:Ei; [discriminate|]. apply nth_error_None in Ei. lia.
Qed.
Lemma sort_groups_spec (key : list elem -> list Q) f l : let gs := sort_key key (groups_of order f l) in
  Permutation (concat gs) l /\ (forall g, In g gs -> g <> []).
Proof.
  cbv zeta. destruct (groups_of_spec f l) as [P N]. unfold sort_key. split.
  - eapply Permutation_trans; [|exact P]. apply Permutation_sym.
    pose proof (py_sort_perm (fun a b => lex_le (key a) (key b)) (groups_of order f l)) as S. clear - S.
    induction S; cbn; [constructor|apply Permutation_app_head; assumption| |eapply Permutation_trans; eassumption].
    rewrite !app_assoc. apply Permutation_app_tail. apply Permutation_app_comm.
  - intros g I. apply py_sort_In in I. apply N. exact I.
Qed.
Lemma part_le (gs : list (list elem)) l g : Permutation (concat gs) l -> In g gs -> (length g <= length l)%nat.
Proof.
  intros P I. rewrite <- (Permutation_length P). apply in_split in I. destruct I as (a & b & ->). rewrite concat_app. cbn [concat]. rewrite !app_length. lia.
Qed.
Lemma part_lt (gs : list (list elem)) l g : Permutation (concat gs) l -> (forall h, In h gs -> h <> []) -> length gs <> 1%nat -> In g gs -> (length g < length l)%nat.
Proof.
  intros P N L I. rewrite <- (Permutation_length P). apply in_split in I. destruct I as (a & b & ->).
  assert (X : exists h, In h (a ++ b)). { destruct a as [|h a]; [|exists h; left; reflexivity]. destruct b as [|h b]; [exfalso; apply L; reflexivity|exists h; left; reflexivity]. }
  destruct X as (h & Ih). assert (Nh : h <> []) by (apply N; apply in_or_app; apply in_app_or in Ih; destruct Ih; [left|right; right]; assumption).
  assert (Lh : (1 <= length h)%nat) by (destruct h; [congruence|cbn; lia]).
  assert (Hc : (length h <= length (concat (a ++ b)))%nat) by (apply (part_le (a ++ b)); [apply Permutation_refl|exact Ih]).
  rewrite !concat_app in *. cbn [concat]. rewrite !app_length in *. lia.
Qed.
Lemma rows_loop_ext rec rec' ref : forall rows top B L R st, (forall r, In r rows -> forall T' B' L' R' s, rec r T' B' L' R' s = rec' r T' B' L' R' s) ->
  rows_loop rec ref rows top B L R st = rows_loop rec' ref rows top B L R st.
Proof.
  induction rows as [|r rest IH]; intros top B L R st H; cbn [rows_loop]; [reflexivity|]. destruct rest as [|r' rest'].
  - apply H. left. reflexivity.
  - rewrite (H r (or_introl eq_refl)). apply IH. intros x I. apply H. right. exact I.
Qed.
Lemma cols_loop_ext rec rec' ref : forall cols T B left R st,
  (forall c r, In c cols -> length (group_by_rows order c) <> 1%nat -> In r (group_by_rows order c) -> forall T' B' L' R' s, rec r T' B' L' R' s = rec' r T' B' L' R' s) ->
  cols_loop order rec ref cols T B left R st = cols_loop order rec' ref cols T B left R st.
Proof.
  induction cols as [|c rest IH]; intros T B left R st H; cbn [cols_loop]; [reflexivity|]. cbv zeta.
  rewrite IH by (intros x r I; apply H; right; exact I). f_equal.
  destruct (Nat.eqb (length (group_by_rows order c)) 1) eqn:E; [reflexivity|]. apply Nat.eqb_neq in E.
  apply rows_loop_ext. intros r I. apply (H c r (or_introl eq_refl) E I).
Qed.
Lemma inner_fuel : forall n m ls, (length ls <= n)%nat -> (length ls <= m)%nat -> forall T B L R st, inner order n ls T B L R st = inner order m ls T B L R st.
Proof.
  assert (Z : forall n T B L R st, inner order n [] T B L R st = st).
  { intros [|n] T B L R st; [reflexivity|]. cbn [inner]. assert (E : group_by_columns order [] = []).
    { unfold group_by_columns. destruct (sort_groups_spec (fun g => [rx0 (coll_bbox g)]) (fun a b => vertically_align_with a b 0 false) []) as [P N].
      cbv zeta in *. destruct (sort_key _ _) as [|g t]; [reflexivity|]. exfalso. apply (N g (or_introl eq_refl)). apply Permutation_sym, Permutation_nil in P. cbn in P. apply app_eq_nil in P. apply P. }
    rewrite E. reflexivity. }
  induction n as [|n IH]; intros m ls Hn Hm T B L R st.
  - destruct ls; [|cbn in Hn; lia]. rewrite !Z. reflexivity.
  - destruct m as [|m]; [destruct ls; [|cbn in Hm; lia]; rewrite !Z; reflexivity|].
    cbn [inner]. cbv zeta. apply cols_loop_ext. intros c r Ic Nr Ir T' B' L' R' s. apply IH.
    + destruct (sort_groups_spec (fun g => [rx0 (coll_bbox g)]) (fun a b => vertically_align_with a b 0 false) ls) as [P1 _].
      destruct (sort_groups_spec (fun g => [ry0 (coll_bbox g)]) (fun a b => horizontally_align_with a b FACTOR_A_FEW true) c) as [P2 N2].
      pose proof (part_le _ _ c P1 Ic). pose proof (part_lt _ _ r P2 N2 Nr Ir). lia.
    + destruct (sort_groups_spec (fun g => [rx0 (coll_bbox g)]) (fun a b => vertically_align_with a b 0 false) ls) as [P1 _].
      destruct (sort_groups_spec (fun g => [ry0 (coll_bbox g)]) (fun a b => horizontally_align_with a b FACTOR_A_FEW true) c) as [P2 N2].
      pose proof (part_le _ _ c P1 Ic). pose proof (part_lt _ _ r P2 N2 Nr Ir). lia.
Qed.
End Fuel.
