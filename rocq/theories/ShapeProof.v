(** Lemmas about shapes. *)
From Verif Require Import GeomModel GeomSpec GeomProof PageProof ShapeModel ShapeSpec.
From Coq Require Import Lia Permutation Sorted.
Open Scope Q_scope.

Lemma rtype_eqb_spec a b : reflect (a = b) (rtype_eqb a b).
Proof. destruct a, b; constructor; congruence. Qed.

(* ------------------------------------------------------------------ *)
(** * Strokes *)
Lemma new_stroke_fields ax ay bx by_ w c t : let s := new_stroke ax ay bx by_ w c t in
  sh_kind s = KStroke /\ sh_color s = c /\ sh_type s = t /\ sh_width s = w /\ sh_uri s = 0%nat /\
  sh_bbox s = rround (stroke_rect (sh_x0 s) (sh_y0 s) (sh_x1 s) (sh_y1 s) w).
Proof. unfold new_stroke. destruct (qlt bx ax || qlt by_ ay); cbn; repeat split. Qed.

Lemma stroke_axis ax ay bx by_ w c t : ax == bx \/ ay == by_ ->
  let s := new_stroke ax ay bx by_ w c t in
  sh_x0 s == qmin ax bx /\ sh_y0 s == qmin ay by_ /\ sh_x1 s == qmax ax bx /\ sh_y1 s == qmax ay by_.
Proof.
  intros H. unfold new_stroke, qmin, qmax.
  destruct (qlt_spec bx ax), (qlt_spec by_ ay), (qlt_spec ax bx), (qlt_spec ay by_); cbn; repeat split; destruct H; lra.
Qed.
Lemma rround_req a b : req a b -> req (rround a) (rround b).
Proof. unfold req. intros (A & B & C & D). cbn. repeat split; apply round_p_comp; assumption. Qed.
Lemma stroke_rect_req x0 y0 x1 y1 w x0' y0' x1' y1' w' : x0 == x0' -> y0 == y0' -> x1 == x1' -> y1 == y1' -> w == w' ->
  req (stroke_rect x0 y0 x1 y1 w) (stroke_rect x0' y0' x1' y1' w').
Proof. intros A B C D E. unfold req, stroke_rect. cbn. rewrite A, B, C, D, E. repeat split; reflexivity. Qed.

Lemma stroke_direction ax ay bx by_ w c t : ax == bx \/ ay == by_ ->
  same_shape (new_stroke ax ay bx by_ w c t) (new_stroke bx by_ ax ay w c t).
Proof.
  intros H.
  assert (H' : bx == ax \/ by_ == ay) by (destruct H; [left|right]; lra).
  destruct (stroke_axis ax ay bx by_ w c t H) as (A & B & C & D). cbv zeta in *.
  destruct (stroke_axis bx by_ ax ay w c t H') as (A' & B' & C' & D'). cbv zeta in *.
  destruct (new_stroke_fields ax ay bx by_ w c t) as (K & Co & T & W & U & Bo). cbv zeta in *.
  destruct (new_stroke_fields bx by_ ax ay w c t) as (K' & Co' & T' & W' & U' & Bo'). cbv zeta in *.
  rewrite qmin_sym in A', B'. rewrite qmax_sym in C', D'.
  assert (E1 := Qeq_trans _ _ _ A (Qeq_sym _ _ A')). assert (E2 := Qeq_trans _ _ _ B (Qeq_sym _ _ B')).
  assert (E3 := Qeq_trans _ _ _ C (Qeq_sym _ _ C')). assert (E4 := Qeq_trans _ _ _ D (Qeq_sym _ _ D')).
  unfold same_shape. rewrite K, K', Co, Co', T, T', W, W', U, U'.
  split; [reflexivity|]. split; [|exact (conj eq_refl (conj eq_refl (conj E1 (conj E2 (conj E3 (conj E4 (conj (Qeq_refl w) eq_refl)))))))].
  rewrite Bo, Bo'. apply rround_req. exact (stroke_rect_req _ _ _ _ _ _ _ _ _ _ E1 E2 E3 E4 (Qeq_refl w)).
Qed.

Lemma stroke_roundtrip s : sh_kind s = KStroke -> sh_x0 s <= sh_x1 s -> sh_y0 s <= sh_y1 s ->
  sh_bbox s = rround (stroke_rect (sh_x0 s) (sh_y0 s) (sh_x1 s) (sh_y1 s) (sh_width s)) -> sh_uri s = 0%nat ->
  restore_shape (store_shape s) = s.
Proof.
  intros K Hx Hy B U. unfold store_shape. rewrite K. cbn [restore_shape]. unfold new_stroke.
  destruct (qlt_spec (sh_x1 s) (sh_x0 s)); [exfalso; lra|]. destruct (qlt_spec (sh_y1 s) (sh_y0 s)); [exfalso; lra|].
  cbn [orb]. rewrite <- B. destruct s; cbn in *; subst. reflexivity.
Qed.
Lemma fill_roundtrip s : sh_kind s <> KStroke -> rect_decimal (sh_bbox s) ->
  let s' := restore_shape (store_shape s) in
  sh_kind s' = sh_kind s /\ req (sh_bbox s') (sh_bbox s) /\ sh_color s' = sh_color s /\ sh_type s' = sh_type s /\
  (sh_kind s = KLink -> sh_uri s' = sh_uri s).
Proof.
  intros K D. unfold store_shape. destruct (sh_kind s) eqn:E; [congruence| |]; cbn;
    (split; [reflexivity|]; split; [exact (rround_fixed _ D)|]; auto); split; auto; split; auto; congruence.
Qed.

(** Updating the box. *)
Lemma update_bbox_kept s r : let u := shape_update_bbox s r in
  sh_kind u = sh_kind s /\ sh_color u = sh_color s /\ sh_type u = sh_type s.
Proof.
  unfold shape_update_bbox. destruct (sh_kind s) eqn:K; cbn; auto.
  unfold stroke_update_bbox. destruct (qeq (area r) 0); [cbn; auto|]. destruct (qle (rheight r) (rwidth r)); cbn; auto.
Qed.
Lemma update_bbox_proper s r : proper r -> sh_bbox (shape_update_bbox s r) = rround r.
Proof.
  intros P. unfold shape_update_bbox. destruct (sh_kind s); try reflexivity. unfold stroke_update_bbox.
  pose proof (area_pos r P). destruct (qeq_spec (area r) 0); [exfalso; lra|]. destruct (qle (rheight r) (rwidth r)); reflexivity.
Qed.
Lemma stroke_update_proper s r : proper r -> let u := stroke_update_bbox s r in
  sh_bbox u = rround r /\
  (rheight r <= rwidth r -> sh_x0 u == rx0 r /\ sh_x1 u == rx1 r /\ sh_y0 u == (ry0 r + ry1 r) / 2 /\ sh_y1 u == (ry0 r + ry1 r) / 2) /\
  (rwidth r < rheight r -> sh_y0 u == ry0 r /\ sh_y1 u == ry1 r /\ sh_x0 u == (rx0 r + rx1 r) / 2 /\ sh_x1 u == (rx0 r + rx1 r) / 2).
Proof.
  intros P. unfold stroke_update_bbox. pose proof (area_pos r P). destruct (qeq_spec (area r) 0); [exfalso; lra|].
  destruct (qle_spec (rheight r) (rwidth r)); cbn; (split; [reflexivity|]); split; intros L; try (exfalso; lra);
    repeat split; reflexivity.
Qed.
Lemma half_split x : x - 0 / 2 == x. Proof. field. Qed.
Lemma to_stroke_spec s m : normal_box (sh_bbox s) -> sh_kind s = KFill ->
  match to_stroke s m with
  | None => m < rwidth (sh_bbox s) /\ m < rheight (sh_bbox s)
  | Some u => (rwidth (sh_bbox s) <= m \/ rheight (sh_bbox s) <= m) /\
              sh_kind u = KStroke /\ req (sh_bbox u) (sh_bbox s) /\ sh_color u = sh_color s /\
              sh_width u == qmin (rwidth (sh_bbox s)) (rheight (sh_bbox s)) /\ covers (sh_bbox s) (mkRect (sh_x0 u) (sh_y0 u) (sh_x1 u) (sh_y1 u))
  end.
Proof.
  intros [V D] K. unfold to_stroke. set (w := qmin (rwidth (sh_bbox s)) (rheight (sh_bbox s))).
  destruct (qlt_spec m w) as [H|H].
  - split; eapply Qlt_le_trans; try exact H; [apply qmin_l|apply qmin_r].
  - split; [unfold w, qmin in H; destruct (qlt (rheight (sh_bbox s)) (rwidth (sh_bbox s))); [right|left]; lra|].
    destruct (new_stroke_fields 0 0 0 0 w (sh_color s) R_UNDEFINED) as (K0 & C0 & _ & W0 & _ & _). cbv zeta in *.
    set (n := new_stroke 0 0 0 0 w (sh_color s) R_UNDEFINED) in *.
    destruct (valid_dec _ V) as [E|P].
    + assert (A : area (sh_bbox s) == 0).
      { apply rect_empty_true in E; [|exact V]. unfold area, rwidth, rheight. destruct E as [E|E]; rewrite E; ring. }
      assert (W : w == 0).
      { apply rect_empty_true in E; [|exact V]. destruct V as [V1 V2]. unfold w, qmin, rwidth, rheight in *. qcases; destruct E; lra. }
      unfold stroke_update_bbox. destruct (qeq_spec (area (sh_bbox s)) 0) as [_|N]; [|contradiction].
      cbn [set_line sh_kind sh_bbox sh_color sh_width sh_x0 sh_y0 sh_x1 sh_y1]. rewrite K0, C0, W0.
      split; [reflexivity|]. split.
      * eapply req_trans; [|apply rround_fixed; exact D]. apply rround_req. unfold req, stroke_rect. cbn. rewrite W. repeat split; field.
      * split; [reflexivity|]. split; [reflexivity|]. unfold covers. cbn. destruct V. repeat split; lra.
    + destruct (stroke_update_proper n (sh_bbox s) P) as (B & H1 & H2). cbv zeta in *.
      assert (Kc : sh_kind (stroke_update_bbox n (sh_bbox s)) = KStroke /\ sh_color (stroke_update_bbox n (sh_bbox s)) = sh_color s /\ sh_width (stroke_update_bbox n (sh_bbox s)) = w).
      { unfold stroke_update_bbox. destruct (qeq (area (sh_bbox s)) 0); [cbn; auto|]. destruct (qle _ _); cbn; auto. }
      destruct Kc as (Ka & Kb & Kd). rewrite Ka, Kb, Kd, B. split; [reflexivity|]. split; [apply rround_fixed; exact D|].
      split; [reflexivity|]. split; [reflexivity|].
      destruct P as [P1 P2]. unfold covers. cbn [rx0 ry0 rx1 ry1].
      destruct (Qlt_le_dec (rwidth (sh_bbox s)) (rheight (sh_bbox s))) as [L|L].
      * destruct (H2 L) as (I1 & I2 & I3 & I4). rewrite I1, I2, I3, I4. repeat split; try lra; apply Qle_shift_div_r || apply Qle_shift_div_l; lra.
      * destruct (H1 L) as (I1 & I2 & I3 & I4). rewrite I1, I2, I3, I4. repeat split; try lra; apply Qle_shift_div_r || apply Qle_shift_div_l; lra.
Qed.

(* ------------------------------------------------------------------ *)
(** * clean_up *)
Definition okshape (s : shape) : Prop := normal_box (sh_bbox s) /\ proper (sh_bbox s).

Lemma hull_single s : hull (sh_bbox s) [s].
Proof.
  split; [intros x [<-|[]]; apply covers_refl|]. intros c H. apply H. left. reflexivity.
Qed.
Lemma link_type s : is_link_type s = true <-> sh_type s = R_HYPERLINK.
Proof. unfold is_link_type. destruct (rtype_eqb_spec (sh_type s) R_HYPERLINK); split; congruence. Qed.

(** Invariant kept by the merging loop; the type of the representative is that of the
    first member of its group. *)
Definition inv (u : shape) (g : list shape) : Prop :=
  okshape u /\ stands_for u g /\ sh_type u = sh_type (hd u g).

Lemma runion_of_main a b thr m : get_main_bbox a b thr = Some m -> m = runion a b.
Proof.
  unfold get_main_bbox. destruct (rect_bool (rinter a b)); [|discriminate].
  destruct (qle thr _); [|discriminate]. congruence.
Qed.
Lemma merge_into_inv thr s : okshape s -> forall uniq gs, Forall2 inv uniq gs ->
  exists gs', Forall2 inv (merge_into thr s uniq) gs' /\ Permutation (concat gs') (s :: concat gs).
Proof.
  intros Hs uniq gs F. induction F as [|u g uniq gs Hu F IH]; cbn [merge_into].
  - exists [[s]]. split; [|apply Permutation_refl]. constructor; [|constructor].
    split; [exact Hs|]. split; [|reflexivity]. split; [discriminate|]. split; [intros x [<-|[]]; reflexivity|].
    split; [apply hull_single|]. intros x [<-|[]] _. reflexivity.
  - destruct IH as (gs' & F' & P').
    assert (Skip : exists gs0, Forall2 inv (u :: merge_into thr s uniq) gs0 /\ Permutation (concat gs0) (s :: concat (g :: gs))).
    { exists (g :: gs'). split; [constructor; assumption|]. cbn. rewrite P'.
      apply Permutation_trans with ((s :: g) ++ concat gs); [|apply Permutation_refl].
      change (s :: concat gs) with ([s] ++ concat gs). rewrite app_assoc. apply Permutation_app_tail.
      apply Permutation_sym, Permutation_cons_append. }
    destruct (Z.eqb_spec (sh_color u) (sh_color s)) as [Ec|Nc]; cbn [negb orb]; [|exact Skip].
    destruct (is_link_type s) eqn:Ls; cbn [orb]; [exact Skip|]. destruct (is_link_type u) eqn:Lu; [exact Skip|].
    destruct (get_main_bbox (sh_bbox s) (sh_bbox u) thr) as [m|] eqn:G; [|exact Skip].
    destruct (rect_bool m) eqn:Bm; [|exact Skip].
    exists ((g ++ [s]) :: gs). split.
    + constructor; [|exact F]. destruct Hu as ((Nu & Pu) & (Gne & Gc & (Gh1 & Gh2) & Gl) & Gt). destruct Hs as (Ns & Ps).
      destruct (main_bbox_covers _ _ _ _ Ps Pu G) as (M1 & M2 & M3).
      assert (Em : m = runion (sh_bbox s) (sh_bbox u)) by (eapply runion_of_main; exact G).
      assert (Dm : rect_decimal m) by (rewrite Em; apply runion_decimal; [apply Ns|apply Nu]).
      assert (Pm : proper m) by (rewrite Em; apply runion_covers; assumption).
      destruct (update_bbox_kept u m) as (Kk & Kc & Kt). cbv zeta in *. pose proof (update_bbox_proper u m Pm) as Bu.
      assert (Rm : req (rround m) m) by (apply rround_fixed; exact Dm).
      assert (Eu : req (sh_bbox (shape_update_bbox u m)) m) by (rewrite Bu; exact Rm).
      split.
      { split; [|eapply proper_req; [apply req_sym; exact Eu|exact Pm]].
        split; [eapply valid_req; [apply req_sym; exact Eu|apply proper_valid; exact Pm]|]. rewrite Bu. apply rround_decimal. }
      split.
      { split; [destruct g; discriminate|]. split.
        - intros x Hx. rewrite Kc. apply in_app_or in Hx. destruct Hx as [Hx|[<-|[]]]; [apply Gc; exact Hx|congruence].
        - split.
          + split.
            * intros x Hx. eapply covers_req_l; [apply req_sym; exact Eu|]. apply in_app_or in Hx.
              destruct Hx as [Hx|[<-|[]]]; [|exact M1]. eapply covers_trans; [exact M2|apply Gh1; exact Hx].
            * intros c Hc. eapply covers_req_r; [apply req_sym; exact Eu|]. apply M3; [apply Hc, in_or_app; right; left; reflexivity|].
              apply Gh2. intros x Hx. apply Hc, in_or_app. left. exact Hx.
          + intros x Hx Tx. exfalso. apply in_app_or in Hx. destruct Hx as [Hx|[<-|[]]].
            * pose proof (Gl x Hx Tx) as Eg. rewrite Eg in Gt. cbn in Gt. rewrite Tx in Gt.
              apply link_type in Gt. congruence.
            * apply link_type in Tx. congruence. }
      { rewrite Kt, Gt. destruct g; [contradiction Gne; reflexivity|reflexivity]. }
    + cbn. rewrite <- app_assoc. cbn. apply Permutation_sym, Permutation_middle.
Qed.
Lemma merge_shapes_inv thr l : (forall s, In s l -> okshape s) ->
  exists gs, Forall2 inv (merge_shapes thr l) gs /\ Permutation (concat gs) l.
Proof.
  intros H. unfold merge_shapes.
  assert (G : forall l uniq gs, (forall s, In s l -> okshape s) -> Forall2 inv uniq gs ->
    exists gs', Forall2 inv (fold_left (fun u s => merge_into thr s u) l uniq) gs' /\ Permutation (concat gs') (l ++ concat gs)).
  { clear l H. induction l as [|s t IH]; intros uniq gs H F; cbn; [exists gs; split; [exact F|apply Permutation_refl]|].
    destruct (merge_into_inv thr s (H s (or_introl eq_refl)) uniq gs F) as (gs1 & F1 & P1).
    destruct (IH _ gs1 (fun x Hx => H x (or_intror Hx)) F1) as (gs2 & F2 & P2).
    exists gs2. split; [exact F2|]. rewrite P2, P1. apply Permutation_sym, Permutation_middle. }
  destruct (G l [] [] H (Forall2_nil _)) as (gs & F & P). exists gs. split; [exact F|]. cbn in P. rewrite app_nil_r in P. exact P.
Qed.

(** The final shape: same box and colour; a thin fill becomes a stroke. *)
Definition final_of (w : Q) (u v : shape) : Prop :=
  req (sh_bbox v) (sh_bbox u) /\ sh_color v = sh_color u /\
  sh_kind v = (match sh_kind u with KFill => if qlt w (qmin (rwidth (sh_bbox u)) (rheight (sh_bbox u))) then KFill else KStroke | k => k end).
Lemma stroke_if_thin_spec w u : okshape u -> final_of w u (stroke_if_thin w u) /\ shape_bool (stroke_if_thin w u) = true.
Proof.
  intros (N & P). unfold stroke_if_thin, final_of.
  assert (T : rect_bool (sh_bbox u) = true) by (apply proper_truthy; exact P).
  destruct (sh_kind u) eqn:K; try (rewrite K; split; [split; [apply req_refl|auto]|exact T]).
  pose proof (to_stroke_spec u w N K) as S. unfold to_stroke in *.
  destruct (qlt_spec w (qmin (rwidth (sh_bbox u)) (rheight (sh_bbox u)))) as [L|L].
  - rewrite K. split; [split; [apply req_refl|auto]|exact T].
  - destruct S as (_ & S2 & S3 & S4 & _).
    set (v := stroke_update_bbox _ _) in *.
    assert (Tv : shape_bool v = true) by (apply proper_truthy; eapply proper_req; [apply req_sym; exact S3|exact P]).
    rewrite Tv. split; [|exact Tv]. split; [exact S3|]. split; [exact S4|exact S2].
Qed.
Lemma filter_all_id {A} (f : A -> bool) l : (forall x, In x l -> f x = true) -> filter f l = l.
Proof. apply filter_id_all. Qed.
Lemma Forall2_map_l {A B C} (R : C -> B -> Prop) (f : A -> C) l l' : Forall2 R (map f l) l' <-> Forall2 (fun a b => R (f a) b) l l'.
Proof.
  split.
  - revert l'. induction l as [|a t IH]; intros l' H; inversion H; subst; constructor; [assumption|apply IH; assumption].
  - induction 1; cbn; constructor; assumption.
Qed.
Lemma Forall2_impl_in {A B} (R S : A -> B -> Prop) l l' : (forall a b, In a l -> R a b -> S a b) -> Forall2 R l l' -> Forall2 S l l'.
Proof.
  intros H F. induction F as [|a b l l' Hab F IH]; constructor; [apply H; [left; reflexivity|exact Hab]|].
  apply IH. intros x y Hx. apply H. right. exact Hx.
Qed.
Lemma keep_ok page md s : normal_box (sh_bbox s) -> keep_shape page md s = true -> okshape s.
Proof.
  intros N K. split; [exact N|]. unfold keep_shape, rintersects in K. apply andb_prop in K. destruct K as [K _].
  apply andb_prop in K. destruct K as [K _]. apply andb_prop in K. destruct K as [K _].
  apply rect_empty_false; [apply N|]. destruct (rect_empty (sh_bbox s)); [discriminate|reflexivity].
Qed.
Lemma filter_perm {A} (f : A -> bool) l l' : Permutation l l' -> Permutation (filter f l) (filter f l').
Proof.
  induction 1 as [|x l l' P IH|x y l|l1 l2 l3 P1 IH1 P2 IH2]; cbn.
  - constructor.
  - destruct (f x); [constructor; exact IH|exact IH].
  - destruct (f x), (f y); try apply Permutation_refl. apply perm_swap.
  - eapply Permutation_trans; eassumption.
Qed.
Lemma clean_up_spec page w thr md l : (forall s, In s l -> normal_box (sh_bbox s)) ->
  exists us gs, Forall2 stands_for us gs /\ Permutation (concat gs) (filter (keep_shape page md) l) /\
    Forall2 (final_of w) us (clean_up page w thr md l).
Proof.
  intros H. unfold clean_up. set (k := filter (keep_shape page md) (sort_key shape_key l)).
  assert (Pk : Permutation k (filter (keep_shape page md) l)).
  { apply filter_perm. apply Permutation_sym. apply py_sort_perm. }
  assert (Hk : forall s, In s k -> okshape s).
  { intros s Hs. apply filter_In in Hs. destruct Hs as [Hs K]. eapply keep_ok; [|exact K]. apply H.
    eapply Permutation_in; [apply Permutation_sym; apply py_sort_perm|exact Hs]. }
  destruct (merge_shapes_inv thr k Hk) as (gs & F & P). exists (merge_shapes thr k), gs.
  split; [eapply Forall2_impl_in; [|exact F]; intros a b _ (_ & S & _); exact S|].
  split; [rewrite P; exact Pk|].
  assert (Ok : forall u, In u (merge_shapes thr k) -> okshape u).
  { intros u Hu. clear - F Hu. induction F as [|a b la lb Hab F IH]; [destruct Hu|]. destruct Hu as [<-|Hu]; [apply Hab|apply IH; exact Hu]. }
  clear F. rewrite filter_all_id.
  - induction (merge_shapes thr k) as [|u t IH]; cbn; constructor; [apply stroke_if_thin_spec, Ok; left; reflexivity|].
    apply IH. intros x Hx. apply Ok. right. exact Hx.
  - intros x Hx. apply in_map_iff in Hx. destruct Hx as (u & <- & Hu). apply stroke_if_thin_spec, Ok, Hu.
Qed.

(* ------------------------------------------------------------------ *)
(** * Classification *)
Lemma contains_meets a e th : proper a -> proper e -> 0 < th -> contains a e th = true ->
  ry0 a < ry1 e /\ ry0 e < ry1 a.
Proof.
  intros Pa Pe T C.
  split; apply Qnot_le_lt; intros L; rewrite (contains_disjoint a e th Pa Pe T) in C; try discriminate; tauto.
Qed.
Lemma contains_proper_arg a e th : valid e -> contains a e th = true -> proper e.
Proof.
  intros V C. destruct (valid_dec e V) as [E|P]; [exfalso|exact P].
  apply rect_empty_true in E; [|exact V].
  assert (Z : area e == 0) by (unfold area, rwidth, rheight; destruct E as [E|E]; rewrite E; ring).
  unfold contains in C. destruct (qeq_spec (area e) 0); [discriminate|contradiction].
Qed.
Definition sorted_blocks (bs : list tblock) : Prop := StronglySorted (fun a b => ry0 (tb_bbox a) <= ry0 (tb_bbox b)) bs.

(** Decisive test of one block. *)
Definition hit (s : shape) (b : tblock) : Prop := check_semantic s b <> R_UNDEFINED.
Lemma semantic_loop_spec s bs :
  (forall b, In b bs -> hit s b -> ry0 (tb_bbox b) < ry1 (sh_bbox s) /\ ry0 (sh_bbox s) < ry1 (tb_bbox b)) ->
  sorted_blocks bs -> (forall b b', In b bs -> In b' bs -> hit s b -> hit s b' -> check_semantic s b = check_semantic s b') ->
  (semantic_loop s bs = R_UNDEFINED /\ forall b, In b bs -> ~ hit s b) \/
  (exists b, In b bs /\ hit s b /\ semantic_loop s bs = check_semantic s b).
Proof.
  induction bs as [|b t IH]; intros Hm Hs Hu; [left; split; [reflexivity|intros b []]|].
  inversion Hs as [|? ? Hs' Hb]; subst. rewrite Forall_forall in Hb.
  assert (IH' := IH (fun x Hx => Hm x (or_intror Hx)) Hs' (fun x y Hx Hy => Hu x y (or_intror Hx) (or_intror Hy))). clear IH.
  cbn [semantic_loop]. destruct (qlt_spec (ry1 (tb_bbox b)) (ry0 (sh_bbox s))) as [L|L].
  - destruct IH' as [[E N]|(x & Hx & Ix & Ex)].
    + left. split; [exact E|]. intros x [<-|Hx] I; [|exact (N x Hx I)]. destruct (Hm b (or_introl eq_refl) I). lra.
    + right. exists x. split; [right; exact Hx|]. auto.
  - destruct (rtype_eqb_spec (check_semantic s b) R_UNDEFINED) as [E|N]; cbn [negb].
    + destruct (qlt_spec (ry1 (sh_bbox s)) (ry0 (tb_bbox b))) as [L2|L2].
      * left. split; [reflexivity|]. intros x [<-|Hx] I; [exact (I E)|].
        destruct (Hm x (or_intror Hx) I) as [M1 _]. pose proof (Hb x Hx). lra.
      * destruct IH' as [[E' N']|(x & Hx & Ix & Ex)].
        -- left. split; [exact E'|]. intros x [<-|Hx] I; [exact (I E)|exact (N' x Hx I)].
        -- right. exists x. split; [right; exact Hx|]. auto.
    + right. exists b. split; [left; reflexivity|]. split; [exact N|reflexivity].
Qed.
Lemma hit_stroke s b : sh_kind s = KStroke -> (check_semantic s b = R_UNDEFINED \/ check_semantic s b = R_UNDERLINE_OR_STRIKE) /\
  (hit s b <-> contains (tb_bbox b) (sh_bbox s) 1 = true /\ exists l, In l (tb_lines b) /\ contains l (sh_bbox s) 1 = true).
Proof.
  intros K. unfold hit, check_semantic. rewrite K. destruct (contains (tb_bbox b) (sh_bbox s) 1).
  - destruct (existsb (fun l => contains l (sh_bbox s) 1) (tb_lines b)) eqn:E; (split; [auto|]); split.
    + intros _. split; [reflexivity|]. apply existsb_exists in E. exact E.
    + discriminate.
    + congruence.
    + intros [_ X]. apply existsb_exists in X. congruence.
  - split; [auto|]. split; [congruence|intros [X _]; discriminate].
Qed.
Lemma hit_fill s b : sh_kind s = KFill -> (check_semantic s b = R_UNDEFINED \/ check_semantic s b = R_SHADING) /\
  (hit s b <-> contains (sh_bbox s) (tb_bbox b) FACTOR_MAJOR = true \/ exists l, In l (tb_lines b) /\ contains (sh_bbox s) l FACTOR_MAJOR = true).
Proof.
  intros K. unfold hit, check_semantic. rewrite K. destruct (contains (sh_bbox s) (tb_bbox b) FACTOR_MAJOR).
  - split; [auto|]. split; [auto|discriminate].
  - destruct (existsb (fun l => contains (sh_bbox s) l FACTOR_MAJOR) (tb_lines b)) eqn:E; (split; [auto|]); split.
    + intros _. right. apply existsb_exists in E. exact E.
    + discriminate.
    + congruence.
    + intros [X|X]; [discriminate|]. apply existsb_exists in X. congruence.
Qed.
Definition block_key (b : tblock) : list Q := [ry0 (tb_bbox b); rx0 (tb_bbox b); rx1 (tb_bbox b)].
Lemma sorted_weaken {A} (R S : A -> A -> Prop) l : (forall a b, R a b -> S a b) -> StronglySorted R l -> StronglySorted S l.
Proof.
  intros H. induction 1 as [|a l S0 IH F]; constructor; [exact IH|]. eapply Forall_impl; [|exact F]. intros x. apply H.
Qed.
Lemma sorted_by_key bs : sorted_blocks (sort_key block_key bs).
Proof.
  unfold sorted_blocks, sort_key.
  eapply sorted_weaken; [|apply py_sort_sorted; [intros; apply lex_le_total|intros ? ? ?; apply lex_le_trans]].
  intros a b H. apply lex3 in H. unfold before3 in H. lra.
Qed.
Lemma semantic_stroke s bs : text_layout bs -> valid (sh_bbox s) -> sh_kind s = KStroke ->
  let r := semantic_type s (sort_key block_key bs) in
  (r = R_UNDERLINE_OR_STRIKE /\ inside_text s bs) \/ (r = R_UNDEFINED /\ ~ inside_text s bs).
Proof.
  intros T V K. cbv zeta. unfold semantic_type. rewrite K.
  assert (Hin : forall b, In b (sort_key block_key bs) <-> In b bs) by (intros b; apply py_sort_In).
  destruct (semantic_loop_spec s (sort_key block_key bs)) as [[E N]|(b & Hb & I & E)].
  - intros b Hb I. apply (hit_stroke s b K) in I. destruct I as [I _]. apply Hin in Hb.
    pose proof (contains_proper_arg _ _ _ V I) as Ps. destruct (T b Hb) as [Pb _].
    apply contains_meets in I; [|assumption|assumption|reflexivity]. exact I.
  - apply sorted_by_key.
  - intros b b' Hb Hb' I I'. destruct (hit_stroke s b K) as [[C|C] _]; [contradiction|].
    destruct (hit_stroke s b' K) as [[C'|C'] _]; [contradiction|]. congruence.
  - right. split; [exact E|]. intros (b & Hb & Hc). apply (N b); [apply Hin; exact Hb|]. apply hit_stroke; assumption.
  - left. split.
    + rewrite E. destruct (hit_stroke s b K) as [[C|C] _]; [contradiction|exact C].
    + exists b. split; [apply Hin; exact Hb|]. apply (hit_stroke s b K). exact I.
Qed.
Lemma semantic_fill s bs : text_layout bs -> proper (sh_bbox s) -> sh_kind s = KFill ->
  let r := semantic_type s (sort_key block_key bs) in
  (r = R_SHADING /\ behind_text s bs) \/ (r = R_UNDEFINED /\ ~ behind_text s bs).
Proof.
  intros T V K. cbv zeta. unfold semantic_type. rewrite K.
  assert (Hin : forall b, In b (sort_key block_key bs) <-> In b bs) by (intros b; apply py_sort_In).
  destruct (semantic_loop_spec s (sort_key block_key bs)) as [[E N]|(b & Hb & I & E)].
  - intros b Hb I. apply (hit_fill s b K) in I. apply Hin in Hb. destruct (T b Hb) as [Pb Hl].
    destruct I as [I|(l & Il & I)].
    + apply contains_meets in I; [tauto|assumption|assumption|reflexivity].
    + destruct (Hl l Il) as [Pl (C1 & C2 & C3 & C4)]. apply contains_meets in I; [|assumption|assumption|reflexivity]. lra.
  - apply sorted_by_key.
  - intros b b' Hb Hb' I I'. destruct (hit_fill s b K) as [[C|C] _]; [contradiction|].
    destruct (hit_fill s b' K) as [[C'|C'] _]; [contradiction|]. congruence.
  - right. split; [exact E|]. intros (b & Hb & Hc). apply (N b); [apply Hin; exact Hb|]. apply hit_fill; assumption.
  - left. split.
    + rewrite E. destruct (hit_fill s b K) as [[C|C] _]; [contradiction|exact C].
    + exists b. split; [apply Hin; exact Hb|]. apply (hit_fill s b K). exact I.
Qed.

(** The four groups as filters of the shapes. *)
Definition is_table_stroke bs s := kind_eqb (sh_kind s) KStroke && rtype_eqb (semantic_type s bs) R_UNDEFINED.
Definition is_table_filling bs s := kind_eqb (sh_kind s) KFill && rtype_eqb (semantic_type s bs) R_SHADING.
Definition is_underline (bs : list tblock) s := kind_eqb (sh_kind s) KStroke.
Definition is_highlight bs s := kind_eqb (sh_kind s) KFill && rtype_eqb (semantic_type s bs) R_UNDEFINED.
Lemma semantic_values s bs : match sh_kind s with
  | KStroke => semantic_type s bs = R_UNDEFINED \/ semantic_type s bs = R_UNDERLINE_OR_STRIKE
  | KFill => semantic_type s bs = R_UNDEFINED \/ semantic_type s bs = R_SHADING
  | KLink => semantic_type s bs = R_HYPERLINK
  end.
Proof.
  unfold semantic_type. destruct (sh_kind s) eqn:K; [| |reflexivity];
  (induction bs as [|b t IH]; cbn [semantic_loop]; [left; reflexivity|];
   destruct (qlt (ry1 (tb_bbox b)) (ry0 (sh_bbox s))); [exact IH|]).
  - destruct (hit_stroke s b K) as [[C|C] _]; rewrite C; cbn; [|auto]. destruct (qlt _ _); auto.
  - destruct (hit_fill s b K) as [[C|C] _]; rewrite C; cbn; [|auto]. destruct (qlt _ _); auto.
Qed.
Lemma classify_filter bs l : forall g, fold_left (classify bs) l g =
  let f p := filter (fun s => shape_bool s && p s) l in
  mkGroups (g_table_strokes g ++ f (is_table_stroke bs)) (g_table_fillings g ++ f (is_table_filling bs))
           (g_underlines g ++ f (is_underline bs)) (g_highlights g ++ f (is_highlight bs)).
Proof.
  induction l as [|s t IH]; intros g; cbn [fold_left].
  - cbn. rewrite !app_nil_r. destruct g; reflexivity.
  - rewrite IH. cbv zeta. unfold classify, add_if. cbn [filter].
    unfold is_table_stroke at 1 2, is_table_filling at 1 2, is_underline at 1 2, is_highlight at 1 2.
    pose proof (semantic_values s bs) as V.
    destruct (sh_kind s) eqn:K; [destruct V as [V|V]|destruct V as [V|V]|]; rewrite V; destruct (shape_bool s) eqn:B; cbn; rewrite ?B; cbn;
      rewrite <- ?app_assoc; reflexivity.
Qed.

(* ------------------------------------------------------------------ *)
(** * Distribution over tables *)
Lemma table_of_range s tables : forall k j, table_of s k tables = Some j -> (k <= j < k + length tables)%nat.
Proof.
  induction tables as [|t r IH]; intros k j H; [discriminate|]. cbn in H. destruct (rcontains t (sh_bbox s)).
  - injection H as <-. cbn. lia.
  - apply IH in H. cbn. lia.
Qed.
Lemma shape_target_range tables s j : shape_target tables s = Some j -> (j < length tables)%nat.
Proof. unfold shape_target. destruct (sh_type s); try discriminate; intros H; apply table_of_range in H; lia. Qed.
Lemma split_targets tables l :
  Permutation l (shapes_kept tables l ++ concat (map (shapes_of_table tables l) (seq 0 (length tables)))).
Proof.
  induction l as [|s t IH].
  - unfold shapes_kept, shapes_of_table. cbn. replace (concat _) with (@nil shape); [constructor|].
    induction (seq 0 (length tables)); cbn; auto.
  - unfold shapes_kept, shapes_of_table in *. cbn [filter]. destruct (shape_target tables s) as [j|] eqn:E.
    + apply shape_target_range in E as Hj.
      assert (G : forall m k0, (k0 <= j < k0 + m)%nat ->
        Permutation (concat (map (fun k => if Nat.eqb j k then s :: filter (fun x => match shape_target tables x with Some i => Nat.eqb i k | None => false end) t
                                           else filter (fun x => match shape_target tables x with Some i => Nat.eqb i k | None => false end) t) (seq k0 m)))
                    (s :: concat (map (fun k => filter (fun x => match shape_target tables x with Some i => Nat.eqb i k | None => false end) t) (seq k0 m)))).
      { induction m as [|m IHm]; intros k0 R; [lia|]. cbn [seq map concat]. destruct (Nat.eqb_spec j k0) as [<-|N].
        - cbn. constructor. apply Permutation_app_head. apply Permutation_refl'. f_equal. apply map_ext_in. intros k Hk. apply in_seq in Hk.
          destruct (Nat.eqb_spec j k); [lia|reflexivity].
        - rewrite IHm by lia. apply Permutation_sym, Permutation_middle. }
      rewrite (G (length tables) 0%nat) by lia. rewrite <- Permutation_middle. constructor. exact IH.
    + cbn. constructor. exact IH.
Qed.
