From Verif Require Import StoreSpec StoreProof StoreProof2 FontProof.
From Coq Require Import Lqa Lia.
Open Scope Q_scope.
Open Scope list_scope.

Lemma round1_round1 x : round1 (round1 x) = round1 x.
Proof.
  assert (H : round_half_even (round1 x * inject_Z 10) = round_half_even (x * inject_Z 10)).
  { rewrite (round_half_even_comp _ (inject_Z (round_half_even (x * inject_Z 10)))); [apply round_half_even_int|apply div_mul_p]. }
  unfold round1 at 1 3. unfold round_p. rewrite H. reflexivity.
Qed.
Lemma rround_rounded r : rounded (rround r).
Proof. unfold rounded, rround. cbn. rewrite !round1_round1. reflexivity. Qed.
Lemma rounded_eq a b : rounded a -> rounded b -> req a b -> a = b.
Proof. intros Ha Hb H. rewrite <- Ha, <- Hb. apply rround_same, H. Qed.
Lemma num_eq x y : round1 x = x -> round1 y = y -> x == y -> x = y.
Proof. intros Hx Hy H. rewrite <- Hx, <- Hy. apply round1_same, H. Qed.
Lemma rounded_coords r : rounded r <-> round1 (rx0 r) = rx0 r /\ round1 (ry0 r) = ry0 r /\ round1 (rx1 r) = rx1 r /\ round1 (ry1 r) = ry1 r.
Proof.
  destruct r as [a b c d]. unfold rounded, rround. cbn [rx0 ry0 rx1 ry1]. split.
  - intros H. injection H as H1 H2 H3 H4. auto.
  - intros (-> & -> & -> & ->). reflexivity.
Qed.
Lemma qmin_or a b : qmin a b = a \/ qmin a b = b. Proof. unfold qmin. destruct (qlt b a); auto. Qed.
Lemma qmax_or a b : qmax a b = a \/ qmax a b = b. Proof. unfold qmax. destruct (qlt a b); auto. Qed.
Lemma union_rounded a b : rounded a -> rounded b -> rounded (runion a b).
Proof.
  intros Ha Hb. unfold runion. destruct (rect_empty b); [exact Ha|]. destruct (rect_empty a); [exact Hb|].
  apply rounded_coords in Ha, Hb. apply rounded_coords. cbn [rx0 ry0 rx1 ry1].
  destruct Ha as (A1 & A2 & A3 & A4), Hb as (B1 & B2 & B3 & B4).
  repeat split.
  - destruct (qmin_or (rx0 a) (rx0 b)) as [-> | ->]; assumption.
  - destruct (qmin_or (ry0 a) (ry0 b)) as [-> | ->]; assumption.
  - destruct (qmax_or (rx1 a) (rx1 b)) as [-> | ->]; assumption.
  - destruct (qmax_or (ry1 a) (ry1 b)) as [-> | ->]; assumption.
Qed.
Lemma union_bbox_exact a b : rounded a -> rounded b -> union_bbox a b = runion a b.
Proof. intros Ha Hb. apply union_rounded; assumption. Qed.
Lemma runion_valid a b : valid a -> valid b -> valid (runion a b).
Proof.
  intros Ha Hb. unfold runion. destruct (rect_empty b); [exact Ha|]. destruct (rect_empty a); [exact Hb|].
  destruct Ha, Hb. unfold valid. cbn. unfold qmin, qmax. qcases; split; lra.
Qed.
Lemma runion_grows a b : valid a -> valid b ->
  (rect_empty a = false -> covers (runion a b) a) /\ (rect_empty b = false -> covers (runion a b) b).
Proof.
  intros Ha Hb. unfold runion. destruct (rect_empty b) eqn:Eb.
  - split; [intros _; unfold covers; repeat split; lra|discriminate].
  - destruct (rect_empty a) eqn:Ea.
    + split; [discriminate|]. intros _. unfold covers. repeat split; lra.
    + split; intros _; unfold covers; cbn; unfold qmin, qmax; qcases; repeat split; lra.
Qed.
Lemma covers_proper a b : covers a b -> proper b -> proper a.
Proof. unfold covers, proper. intros (H1 & H2 & H3 & H4) [P1 P2]. split; lra. Qed.
Lemma covers_tr a b c : covers a b -> covers b c -> covers a c.
Proof. unfold covers. intros (H1 & H2 & H3 & H4) (G1 & G2 & G3 & G4). repeat split; lra. Qed.
Lemma union_absorb g c : rounded g -> rounded c -> valid g -> (rect_empty c = false -> proper g /\ covers g c) -> union_bbox g c = g.
Proof.
  intros Rg Rc V H. rewrite union_bbox_exact by assumption. unfold runion. destruct (rect_empty c) eqn:E; [reflexivity|].
  destruct (H eq_refl) as (P & (C1 & C2 & C3 & C4)). rewrite (proper_nonempty g P).
  apply rounded_coords in Rg, Rc. destruct Rg as (A1 & A2 & A3 & A4), Rc as (B1 & B2 & B3 & B4).
  destruct g as [a b d e]. cbn [rx0 ry0 rx1 ry1] in *. f_equal.
  - unfold qmin. destruct (qlt (rx0 c) a) eqn:F; [apply qlt_iff in F; lra|reflexivity].
  - unfold qmin. destruct (qlt (ry0 c) b) eqn:F; [apply qlt_iff in F; lra|reflexivity].
  - unfold qmax. destruct (qlt d (rx1 c)) eqn:F; [apply qlt_iff in F; lra|reflexivity].
  - unfold qmax. destruct (qlt e (ry1 c)) eqn:F; [apply qlt_iff in F; lra|reflexivity].
Qed.
(** A member box: one decimal, or the zero box of an empty cell. *)
Definition member (r : rect) : Prop := boxed r \/ r = rect0.
Lemma empty0 : rect_empty rect0 = true. Proof. reflexivity. Qed.
Lemma member_valid r : member r -> valid r.
Proof. intros [[_ V]| ->]; [exact V|]. unfold valid. cbn. split; lra. Qed.
Lemma member_union a b : boxed a -> member b -> union_bbox a b = runion a b /\ boxed (runion a b).
Proof.
  intros [R V] [[R' V']| ->].
  - split; [apply union_bbox_exact; assumption|]. split; [apply union_rounded; assumption|apply runion_valid; assumption].
  - assert (E : runion a rect0 = a) by reflexivity. rewrite E. split; [unfold union_bbox; rewrite E; exact R|]. split; assumption.
Qed.
Section Grown.
Context {A : Type} (box : A -> rect).
Lemma grown_facts l : forall b, boxed b -> Forall (fun x => member (box x)) l ->
  boxed (grown box b l) /\ (rect_empty b = false -> covers (grown box b l) b) /\
  Forall (fun x => rect_empty (box x) = false -> covers (grown box b l) (box x)) l.
Proof.
  unfold grown. induction l as [|x l IH]; intros b [Rb Vb] H; cbn [fold_left].
  - split; [split; assumption|]. split; [intros _; unfold covers; repeat split; lra|constructor].
  - inversion H as [|? ? Mx Hl]. subst. destruct (member_union b (box x) (conj Rb Vb) Mx) as [-> Bu]. pose proof (member_valid _ Mx) as Vx.
    destruct (IH (runion b (box x)) Bu Hl) as (I1 & I2 & I3).
    destruct (runion_grows b (box x) Vb Vx) as [G1 G2].
    assert (P : rect_empty b = false \/ rect_empty (box x) = false -> rect_empty (runion b (box x)) = false).
    { intros [E|E]; apply proper_nonempty; eapply covers_proper; [exact (G1 E)|apply rect_empty_false; assumption|exact (G2 E)|apply rect_empty_false; assumption]. }
    split; [exact I1|]. split.
    + intros E. eapply covers_tr; [apply I2, P; left; exact E|exact (G1 E)].
    + constructor; [|exact I3]. intros E. eapply covers_tr; [apply I2, P; right; exact E|exact (G2 E)].
Qed.
Lemma grown_again l b : boxed b -> Forall (fun x => member (box x)) l -> grown box (grown box b l) l = grown box b l.
Proof.
  intros Hb Hl. destruct (grown_facts l b Hb Hl) as ([R V] & _ & C). set (g := grown box b l) in *. clearbody g.
  unfold grown. induction l as [|x l IH]; [reflexivity|]. cbn [fold_left]. inversion C as [|? ? C1 C2]. inversion Hl as [|? ? M1 Hl2]. subst. pose proof (member_valid _ M1) as V1.
  assert (E1 : union_bbox g (box x) = g); [|rewrite E1; apply IH; assumption].
  destruct M1 as [[R1 _]|E0]; [|rewrite E0 in *; unfold union_bbox; exact R].
  apply union_absorb; [exact R|exact R1|exact V|].
  intros E. specialize (C1 E). split; [|exact C1]. eapply covers_proper; [exact C1|]. apply rect_empty_false; assumption.
Qed.
Lemma grown_boxed l b : boxed b -> Forall (fun x => member (box x)) l -> boxed (grown box b l).
Proof. intros Hb Hl. apply (grown_facts l b Hb Hl). Qed.
End Grown.
Lemma boxed_round r : boxed r -> boxed (rround r). Proof. intros [R V]. rewrite R. split; assumption. Qed.

Lemma all_map {A B} (f : A -> B) (P : B -> Prop) l : all P (map f l) <-> all (fun x => P (f x)) l.
Proof. induction l as [|a l IH]; cbn; [tauto|]. rewrite IH. tauto. Qed.
Lemma all_kept {A} (box : A -> rect) (P : A -> Prop) l : all (fun x => there (box x) -> P x) l -> all P (kept box l).
Proof.
  rewrite !all_Forall, !Forall_forall. intros H x Hx. unfold kept in Hx. apply filter_In in Hx. destruct Hx as [H1 H2]. exact (H x H1 H2).
Qed.
Lemma all_and {A} (P R : A -> Prop) l : all P l -> all R l -> all (fun x => P x /\ R x) l.
Proof. rewrite !all_Forall, !Forall_forall. intros H G x Hx. split; auto. Qed.
Lemma all_app {A} (P : A -> Prop) l l' : all P (l ++ l') <-> all P l /\ all P l'.
Proof. rewrite !all_Forall. rewrite Forall_app. tauto. Qed.

Lemma settled_c_char c : settled_char (c_char c).
Proof. unfold settled_char, c_char. apply rround_rounded. Qed.
Lemma settled_c_span s : named_span s -> no_comma_span s -> there (span_box (c_span s)) -> settled_span (c_span s).
Proof.
  destruct s as [t|i]; cbn [named_span no_comma_span c_span span_box settled_span].
  - intros H1 H2 H3. unfold c_tspan in *. cbn [s_box s_font s_chars] in *.
    split; [apply rround_rounded|]. split; [exact H3|]. split; [apply parse_idempotent; exact H2|]. split; [exact H1|].
    apply all_map, all_Forall, Forall_forall. intros c _. apply settled_c_char.
  - intros _ _ H. unfold c_image in *. cbn [i_box] in *. split; [apply rround_rounded|exact H].
Qed.
Lemma settled_c_line l : named_line l -> no_comma_line l -> there (l_box (c_line l)) -> settled_line (c_line l).
Proof.
  intros H1 H2 H3. unfold settled_line, c_line in *. cbn [l_box l_spans l_dir fst snd] in *. split; [reflexivity|]. split; [exact H3|].
  split; [apply Qred_complete, Qred_correct|]. split; [apply Qred_complete, Qred_correct|].
  apply all_kept, all_map. unfold named_line in H1. rewrite <- all_Forall in H1. pose proof (all_and _ _ _ H1 H2) as H. revert H.
  apply all_imp. intros s _ [G1 G2] G3. apply settled_c_span; assumption.
Qed.
Lemma c_boxes : (forall x, regular x -> storable x -> there (block_box (c_block x)) -> settled (c_block x)).
Proof.
  apply (block_nested (fun x => regular x -> storable x -> there (block_box (c_block x)) -> settled (c_block x))
    (fun r => regular_row r -> storable_row r -> boxed (row_box (c_row r)) /\ (there (row_box (c_row r)) -> settled_row (c_row r)))
    (fun c => regular_cell c -> storable_cell c -> member (cell_box (c_cell c)) /\ settled_cell (c_cell c))).
  - intros t b a ls H1 [_ H2] H3. cbn [c_block] in *. unfold c_text in *. cbn [settled block_box] in *.
    split; [reflexivity|]. split; [reflexivity|]. split; [exact H3|]. apply all_kept, all_map.
    cbn [regular] in H1. pose proof (all_and _ _ _ H1 H2) as H. revert H. apply all_imp. intros l _ [G1 G2] G3. apply settled_c_line; assumption.
  - intros t a i _ _ H. cbn in *. split; [reflexivity|]. split; [apply rround_rounded|exact H].
  - intros t b a rows IH [B R] [_ S] H. cbn [c_block block_box settled] in *. rewrite Forall_forall in IH.
    assert (W : Forall (fun r => boxed (row_box (c_row r)) /\ (there (row_box (c_row r)) -> settled_row (c_row r))) rows).
    { apply Forall_forall. intros r Hr. apply IH; [exact Hr|exact (all_In _ _ r R Hr)|exact (all_In _ _ r S Hr)]. }
    assert (W' : Forall (fun r => member (row_box r)) (kept row_box (map c_row rows))).
    { apply Forall_forall. intros r Hr. unfold kept in Hr. apply filter_In in Hr. destruct Hr as [Hr _]. apply in_map_iff in Hr.
      destruct Hr as (r0 & <- & Hr). rewrite Forall_forall in W. left. apply W, Hr. }
    split; [reflexivity|]. split; [apply grown_boxed; [apply boxed_round, B|exact W']|]. split; [exact H|].
    split; [apply grown_again; [apply boxed_round, B|exact W']|]. apply all_kept, all_map, all_Forall. eapply Forall_impl; [|exact W]. cbv beta. tauto.
  - intros b h cells IH [B R] S. cbn [c_row row_box settled_row] in *. rewrite Forall_forall in IH.
    assert (W : Forall (fun c => member (cell_box (c_cell c)) /\ settled_cell (c_cell c)) cells).
    { apply Forall_forall. intros c Hc. apply IH; [exact Hc|exact (all_In _ _ c R Hc)|exact (all_In _ _ c S Hc)]. }
    assert (W' : Forall (fun c => member (cell_box c)) (map c_cell cells)).
    { apply Forall_forall. intros c Hc. apply in_map_iff in Hc. destruct Hc as (c0 & <- & Hc). rewrite Forall_forall in W. apply W, Hc. }
    split; [apply grown_boxed; [apply boxed_round, B|exact W']|]. intros H.
    split; [apply grown_boxed; [apply boxed_round, B|exact W']|]. split; [exact H|].
    split; [apply grown_again; [apply boxed_round, B|exact W']|]. apply all_map, all_Forall. eapply Forall_impl; [|exact W]. cbv beta. tauto.
  - intros b bg bc bw mg bs fs sh IHb IHf (B & Rb & Rf) [Sb Sf]. cbn [c_cell]. destruct (rect_bool b) eqn:E; cbn [cell_box settled_cell].
    + specialize (B eq_refl). split; [left; apply boxed_round, B|]. right. split; [apply rround_rounded|]. split; [destruct B as [-> _]; exact E|]. split; [reflexivity|]. split; [reflexivity|].
      rewrite Forall_forall in IHb, IHf. apply all_kept, all_app. split; apply all_map.
      * pose proof (all_and _ _ _ Rb Sb) as H. revert H. apply all_imp. intros x Hx [G1 G2]. apply IHb; assumption.
      * pose proof (all_and _ _ _ Rf Sf) as H. revert H. apply all_imp. intros x Hx [G1 G2]. apply IHf; assumption.
    + split; [right; reflexivity|]. left. reflexivity.
Qed.
Lemma settled_c_shape s : axis_shape s -> there (shape_box (c_shape s)) -> settled_shape (c_shape s).
Proof.
  destruct s as [b t c|b t c u|b t c p q w]; cbn [axis_shape c_shape]; intros H T.
  - split; [exact T|]. apply rround_rounded.
  - split; [exact T|]. apply rround_rounded.
  - destruct (qlt (fst q) (fst p) || qlt (snd q) (snd p))%bool eqn:E; (split; [exact T|]).
    + apply Bool.orb_true_iff in E. rewrite !qlt_iff in E. split; [|split; [|reflexivity]]; destruct H, E; lra.
    + apply Bool.orb_false_iff in E. destruct E as [E1 E2]. apply Bool.not_true_iff_false in E1, E2. rewrite qlt_iff in E1, E2.
      split; [|split; [|reflexivity]]; lra.
Qed.
Theorem c_page_settled p : page_storable p -> regular_page p -> settled_page (c_page p new_page).
Proof.
  intros [S1 S2] (R1 & R2 & R3). unfold settled_page, c_page. cbn [p_blocks p_floats p_shapes new_page].
  split; [|split; [exact I|]].
  - apply all_kept, all_app. split; apply all_map.
    + pose proof (all_and _ _ _ R1 S1) as H. revert H. apply all_imp. intros x _ [G1 G2]. apply c_boxes; assumption.
    + pose proof (all_and _ _ _ R2 S2) as H. revert H. apply all_imp. intros x _ [G1 G2]. apply c_boxes; assumption.
  - apply all_kept, all_map. revert R3. apply all_imp. intros s _. apply settled_c_shape.
Qed.
