From Verif Require Import GeomModel GeomSpec.
Open Scope Q_scope.

(* ------------------------------------------------------------------ *)
(** * Collections and the owner's box *)
Lemma fold_append_items es : forall c, c_items (extend c es) = c_items c ++ filter elem_bool es.
Proof.
  induction es as [|e t IH]; intros c; cbn [extend fold_left filter]; [rewrite app_nil_r; reflexivity|].
  fold (extend (append c e) t). rewrite IH. unfold append. destruct (elem_bool e); cbn [c_items]; [|reflexivity].
  rewrite <- app_assoc. reflexivity.
Qed.
Definition opt_touch (p : option rect) (e : elem) : option rect :=
  match p with None => None | Some r => Some (union_bbox r (e_bbox e)) end.
Lemma fold_append_parent es : forall c,
  c_parent (extend c es) = fold_left opt_touch (filter elem_bool es) (c_parent c).
Proof.
  induction es as [|e t IH]; intros c; cbn [extend fold_left filter]; [reflexivity|].
  fold (extend (append c e) t). rewrite IH. unfold append. destruct (elem_bool e); cbn [fold_left c_parent]; [|reflexivity].
  unfold touch_parent, opt_touch. destruct (c_parent c); reflexivity.
Qed.
Lemma step_parent c o : c_parent (coll_step c o) = fold_left opt_touch (filter elem_bool (offered o)) (c_parent c).
Proof.
  destruct o as [e|es|es|n e|n]; cbn [coll_step offered].
  - unfold append. cbn [filter]. destruct (elem_bool e); cbn [fold_left c_parent]; [|reflexivity]. unfold touch_parent, opt_touch. destruct (c_parent c); reflexivity.
  - apply fold_append_parent.
  - unfold reset. rewrite fold_append_parent. reflexivity.
  - unfold insert. cbn [filter]. destruct (elem_bool e); cbn [fold_left c_parent]; [|reflexivity]. unfold touch_parent, opt_touch. destruct (c_parent c); reflexivity.
  - unfold pop. destruct (norm_index _ n); reflexivity.
Qed.
Lemma run_parent ops : forall c, c_parent (coll_run c ops) = fold_left opt_touch (filter elem_bool (all_offered ops)) (c_parent c).
Proof.
  induction ops as [|o t IH]; intros c; [reflexivity|]. cbn [coll_run fold_left all_offered flat_map].
  fold (coll_run (coll_step c o) t). rewrite IH, step_parent, filter_app, fold_left_app. reflexivity.
Qed.
Lemma step_items_In c o e : In e (c_items (coll_step c o)) -> In e (c_items c) \/ (In e (offered o) /\ elem_bool e = true).
Proof.
  destruct o as [e'|es|es|n e'|n]; cbn [coll_step offered].
  - unfold append. destruct (elem_bool e') eqn:E; cbn [c_items]; [|auto]. intros H. apply in_app_or in H.
    destruct H as [H|[<-|[]]]; auto. right. split; [left; reflexivity|exact E].
  - rewrite fold_append_items. intros H. apply in_app_or in H. destruct H as [H|H]; auto. apply filter_In in H. tauto.
  - unfold reset. rewrite fold_append_items. cbn [c_items app]. intros H. apply filter_In in H. tauto.
  - unfold insert. destruct (elem_bool e') eqn:E; cbn [c_items]; [|auto]. intros H. apply in_app_or in H.
    destruct H as [H|[<-|H]].
    + left. rewrite <- (firstn_skipn (insert_pos (c_items c) n) (c_items c)). apply in_or_app. auto.
    + right. split; [left; reflexivity|exact E].
    + left. rewrite <- (firstn_skipn (insert_pos (c_items c) n) (c_items c)). apply in_or_app. auto.
  - unfold pop. destruct (norm_index _ n) as [k|]; cbn [c_items]; [|auto]. intros H. left. apply in_app_or in H.
    destruct H as [H|H].
    + rewrite <- (firstn_skipn k (c_items c)). apply in_or_app. auto.
    + rewrite <- (firstn_skipn (S k) (c_items c)). apply in_or_app. auto.
Qed.
Lemma run_items_In ops : forall c e, In e (c_items (coll_run c ops)) ->
  In e (c_items c) \/ (In e (all_offered ops) /\ elem_bool e = true).
Proof.
  induction ops as [|o t IH]; intros c e H; [left; exact H|]. cbn [coll_run fold_left] in H.
  destruct (IH _ _ H) as [H1|[H1 H2]].
  - destruct (step_items_In _ _ _ H1) as [H3|[H3 H4]]; [left; exact H3|].
    right. split; [|exact H4]. cbn. apply in_or_app. auto.
  - right. split; [|exact H2]. cbn. apply in_or_app. auto.
Qed.

(** Boxes up to equality of coordinates. *)
Lemma covers_req_l a a' b : req a a' -> covers a b -> covers a' b.
Proof. unfold req, covers. intros (? & ? & ? & ?) (? & ? & ? & ?). repeat split; lra. Qed.
Lemma covers_req_r a b b' : req b b' -> covers a b -> covers a b'.
Proof. unfold req, covers. intros (? & ? & ? & ?) (? & ? & ? & ?). repeat split; lra. Qed.
Lemma proper_req a b : req a b -> proper a -> proper b.
Proof. unfold req, proper. intros (? & ? & ? & ?) (? & ?). split; lra. Qed.
Lemma valid_req a b : req a b -> valid a -> valid b.
Proof. unfold req, valid. intros (? & ? & ? & ?) (? & ?). split; lra. Qed.
Lemma req_sym a b : req a b -> req b a.
Proof. unfold req. intros (? & ? & ? & ?). repeat split; lra. Qed.
Lemma req_trans a b c : req a b -> req b c -> req a c.
Proof. unfold req. intros (? & ? & ? & ?) (? & ? & ? & ?). repeat split; lra. Qed.
Lemma covers_refl a : covers a a. Proof. unfold covers. repeat split; lra. Qed.
Lemma covers_trans a b c : covers a b -> covers b c -> covers a c.
Proof. unfold covers. intros (? & ? & ? & ?) (? & ? & ? & ?). repeat split; lra. Qed.

Lemma valid_dec r : valid r -> rect_empty r = true \/ proper r.
Proof. intros H. destruct (rect_empty r) eqn:E; [left; reflexivity|right]. apply rect_empty_false; assumption. Qed.

Lemma union_normal a b : normal_box a -> normal_box b ->
  req (union_bbox a b) (runion a b) /\ normal_box (union_bbox a b).
Proof.
  intros [Va Da] [Vb Db]. unfold union_bbox. split.
  - apply rround_fixed. apply runion_decimal; assumption.
  - split; [|apply rround_decimal]. apply rround_valid.
    unfold runion. destruct (valid_dec b Vb) as [->|Pb]; [exact Va|]. rewrite (proper_nonempty b Pb).
    destruct (valid_dec a Va) as [->|Pa]; [exact Vb|]. rewrite (proper_nonempty a Pa).
    destruct (runion_covers a b Pa Pb) as (_ & _ & P & _). unfold runion in P. rewrite !proper_nonempty in P by assumption.
    apply proper_valid. exact P.
Qed.

Lemma touch_all es : forall p, normal_box p -> (forall e, In e es -> normal_box (e_bbox e)) ->
  exists q, fold_left opt_touch es (Some p) = Some q /\ normal_box q /\
    (proper p -> covers q p) /\
    (forall e, In e es -> proper (e_bbox e) -> covers q (e_bbox e)) /\
    (forall c, (proper p -> covers c p) -> (forall e, In e es -> proper (e_bbox e) -> covers c (e_bbox e)) ->
       proper q -> covers c q) /\
    (proper q -> proper p \/ exists e, In e es /\ proper (e_bbox e)) /\
    ((forall e, In e es -> ~ proper (e_bbox e)) -> req q p).
Proof.
  induction es as [|e t IH]; intros p Hp Hes.
  - exists p. split; [reflexivity|]. split; [exact Hp|]. split; [intros _; apply covers_refl|].
    split; [intros e []|]. split; [intros c H _ H2; apply H; exact H2|]. split; [auto|]. intros _. apply req_refl.
  - assert (He := Hes e (or_introl eq_refl)). destruct (union_normal p (e_bbox e) Hp He) as [Ereq Hn].
    destruct (IH (union_bbox p (e_bbox e)) Hn) as (q & Hq & Nq & Q1 & Q2 & Q3 & Q4 & Q5).
    { intros x Hx. apply Hes. right. exact Hx. }
    exists q. cbn [fold_left opt_touch]. split; [exact Hq|]. split; [exact Nq|].
    destruct (valid_dec p (proj1 Hp)) as [Ep|Pp], (valid_dec (e_bbox e) (proj1 He)) as [Ee|Pe].
    + assert (Eu : runion p (e_bbox e) = p) by (unfold runion; rewrite Ee; reflexivity). rewrite Eu in Ereq.
      assert (Np : ~ proper p) by (intros Pp; rewrite (proper_nonempty p Pp) in Ep; discriminate).
      assert (Ne : ~ proper (e_bbox e)) by (intros Pp; rewrite (proper_nonempty _ Pp) in Ee; discriminate).
      assert (Nu : ~ proper (union_bbox p (e_bbox e))) by (intros Pu; apply Np; eapply proper_req; [exact Ereq|exact Pu]).
      split; [tauto|]. split; [|split; [|split]].
      * intros x [<-|Hx] Px; [tauto|apply Q2; assumption].
      * intros c Hc Hcs Pq. apply Q3; [tauto| |exact Pq]. intros x Hx. apply Hcs. right. exact Hx.
      * intros Pq. destruct (Q4 Pq) as [Pu|(x & Hx & Px)]; [tauto|]. right. exists x. split; [right; exact Hx|exact Px].
      * intros Hno. eapply req_trans; [apply Q5; intros x Hx; apply Hno; right; exact Hx|exact Ereq].
    + assert (Eu : runion p (e_bbox e) = e_bbox e) by (unfold runion; rewrite (proper_nonempty _ Pe), Ep; reflexivity). rewrite Eu in Ereq.
      assert (Np : ~ proper p) by (intros Pp; rewrite (proper_nonempty p Pp) in Ep; discriminate).
      assert (Pu : proper (union_bbox p (e_bbox e))) by (eapply proper_req; [apply req_sym; exact Ereq|exact Pe]).
      split; [tauto|]. split; [|split; [|split]].
      * intros x [<-|Hx] Px; [|apply Q2; assumption]. eapply covers_req_r; [exact Ereq|]. apply Q1. exact Pu.
      * intros c Hc Hcs Pq. apply Q3; [| |exact Pq].
        -- intros _. eapply covers_req_r; [apply req_sym; exact Ereq|]. apply Hcs; [left; reflexivity|exact Pe].
        -- intros x Hx. apply Hcs. right. exact Hx.
      * intros _. right. exists e. split; [left; reflexivity|exact Pe].
      * intros Hno. exfalso. exact (Hno e (or_introl eq_refl) Pe).
    + assert (Eu : runion p (e_bbox e) = p) by (unfold runion; rewrite Ee; reflexivity). rewrite Eu in Ereq.
      assert (Ne : ~ proper (e_bbox e)) by (intros P0; rewrite (proper_nonempty _ P0) in Ee; discriminate).
      assert (Pu : proper (union_bbox p (e_bbox e))) by (eapply proper_req; [apply req_sym; exact Ereq|exact Pp]).
      split; [|split; [|split; [|split]]].
      * intros _. eapply covers_req_r; [exact Ereq|]. apply Q1. exact Pu.
      * intros x [<-|Hx] Px; [tauto|apply Q2; assumption].
      * intros c Hc Hcs Pq. apply Q3; [| |exact Pq].
        -- intros _. eapply covers_req_r; [apply req_sym; exact Ereq|]. apply Hc. exact Pp.
        -- intros x Hx. apply Hcs. right. exact Hx.
      * intros _. left. exact Pp.
      * intros Hno. eapply req_trans; [apply Q5; intros x Hx; apply Hno; right; exact Hx|exact Ereq].
    + destruct (runion_covers p (e_bbox e) Pp Pe) as (U1 & U2 & U3 & U4).
      assert (Pu : proper (union_bbox p (e_bbox e))) by (eapply proper_req; [apply req_sym; exact Ereq|exact U3]).
      split; [|split; [|split; [|split]]].
      * intros _. eapply covers_trans; [apply Q1; exact Pu|]. eapply covers_req_l; [apply req_sym; exact Ereq|exact U1].
      * intros x [<-|Hx] Px; [|apply Q2; assumption].
        eapply covers_trans; [apply Q1; exact Pu|]. eapply covers_req_l; [apply req_sym; exact Ereq|exact U2].
      * intros c Hc Hcs Pq. apply Q3; [| |exact Pq].
        -- intros _. eapply covers_req_r; [apply req_sym; exact Ereq|]. apply U4; [apply Hc; exact Pp|]. apply Hcs; [left; reflexivity|exact Pe].
        -- intros x Hx. apply Hcs. right. exact Hx.
      * intros _. left. exact Pp.
      * intros Hno. exfalso. exact (Hno e (or_introl eq_refl) Pe).
Qed.

Lemma proper_truthy r : proper r -> rect_bool r = true.
Proof. intros [H1 H2]. unfold rect_bool. qcases; cbn; try reflexivity. exfalso. lra. Qed.

(** History theorem for a collection with an owner starting from an empty box. *)
Lemma owner_box ops : (forall e, In e (all_offered ops) -> normal_box (e_bbox e)) ->
  exists q, c_parent (coll_run (mkColl [] (Some rect0)) ops) = Some q /\ normal_box q /\
    (forall e, In e (all_offered ops) -> proper (e_bbox e) -> covers q (e_bbox e)) /\
    (forall c, (forall e, In e (all_offered ops) -> proper (e_bbox e) -> covers c (e_bbox e)) -> proper q -> covers c q) /\
    (proper q <-> exists e, In e (all_offered ops) /\ proper (e_bbox e)).
Proof.
  intros H. rewrite run_parent. cbn [c_parent].
  assert (N0 : normal_box rect0).
  { split; [unfold valid, rect0; cbn; lra|]. unfold rect_decimal, rect0. cbn. repeat split; apply decimal_0. }
  assert (P0 : ~ proper rect0) by (unfold proper, rect0; cbn; lra).
  destruct (touch_all (filter elem_bool (all_offered ops)) rect0 N0) as (q & Hq & Nq & _ & Q2 & Q3 & Q4 & Q5).
  { intros e He. apply filter_In in He. apply H. tauto. }
  assert (Hin : forall e, In e (all_offered ops) -> proper (e_bbox e) -> In e (filter elem_bool (all_offered ops))).
  { intros e He Pe. apply filter_In. split; [exact He|apply proper_truthy; exact Pe]. }
  exists q. split; [exact Hq|]. split; [exact Nq|]. split; [|split].
  - intros e He Pe. apply Q2; [apply Hin; assumption|exact Pe].
  - intros c Hc Pq. apply Q3; [tauto| |exact Pq]. intros e He Pe. apply Hc; [|exact Pe]. apply filter_In in He. tauto.
  - split.
    + intros Pq. destruct (Q4 Pq) as [C|(e & He & Pe)]; [tauto|]. exists e. split; [|exact Pe]. apply filter_In in He. tauto.
    + intros (e & He & Pe). assert (C := Q2 e (Hin e He Pe) Pe). unfold covers, proper in *. destruct C as (? & ? & ? & ?), Pe. split; lra.
Qed.

(** The box never shrinks. *)
Lemma owner_box_grows c ops p : c_parent c = Some p -> normal_box p -> proper p ->
  (forall e, In e (all_offered ops) -> normal_box (e_bbox e)) ->
  exists q, c_parent (coll_run c ops) = Some q /\ covers q p.
Proof.
  intros Hc Np Pp H. rewrite run_parent, Hc.
  destruct (touch_all (filter elem_bool (all_offered ops)) p Np) as (q & Hq & Nq & Q1 & _).
  { intros e He. apply filter_In in He. apply H. tauto. }
  exists q. split; [exact Hq|apply Q1; exact Pp].
Qed.

(** Appending keeps the order and drops only falsy elements. *)
Lemma append_only es ops : (forall o, In o ops -> match o with Append _ | Extend _ => True | _ => False end) ->
  c_items (coll_run (mkColl es None) ops) = es ++ filter elem_bool (all_offered ops).
Proof.
  generalize (@None rect). revert es. induction ops as [|o t IH]; intros es p H; cbn [coll_run fold_left all_offered flat_map].
  - rewrite app_nil_r. reflexivity.
  - fold (coll_run (coll_step (mkColl es p) o) t).
    assert (Ho := H o (or_introl eq_refl)).
    assert (E : c_items (coll_step (mkColl es p) o) = es ++ filter elem_bool (offered o)).
    { destruct o as [e|l|l|n e|n]; try contradiction; cbn [coll_step offered].
      - unfold append. cbn [filter]. destruct (elem_bool e); cbn [c_items]; [reflexivity|rewrite app_nil_r; reflexivity].
      - apply fold_append_items. }
    destruct (coll_step (mkColl es p) o) as [it pp] eqn:Es. cbn [c_items] in E. subst it.
    rewrite IH by (intros x Hx; apply H; right; exact Hx). rewrite filter_app, app_assoc. reflexivity.
Qed.

(* ------------------------------------------------------------------ *)
(** * Alignment *)
Lemma overlap_enough_iff axis a b f :
  overlap_enough axis a b f = true <->
  f * qmin (hi axis a - lo axis a) (hi axis b - lo axis b) <= common (lo axis a) (hi axis a) (lo axis b) (hi axis b).
Proof.
  unfold overlap_enough, common. cbv zeta. rewrite qle_iff.
  assert (E : hi axis a - lo axis a + (hi axis b - lo axis b) - (qmax (hi axis a) (hi axis b) - qmin (lo axis a) (lo axis b))
              == qmin (hi axis a) (hi axis b) - qmax (lo axis a) (lo axis b)).
  { unfold qmax, qmin. qcases; lra. }
  rewrite E. reflexivity.
Qed.
Lemma overlap_enough_sym axis a b f : overlap_enough axis a b f = overlap_enough axis b a f.
Proof.
  unfold overlap_enough. cbv zeta. apply qle_comp.
  - rewrite qmin_sym. reflexivity.
  - rewrite (qmax_sym (hi axis a)), (qmin_sym (lo axis a)). lra.
Qed.
Lemma dir_eqb_spec a b : reflect (a = b) (dir_eqb a b).
Proof. destruct a, b; constructor; congruence. Qed.

Lemma valign_sym a b f td : (td = true -> e_dir a = e_dir b) ->
  vertically_align_with a b f td = vertically_align_with b a f td.
Proof.
  intros H. unfold vertically_align_with. rewrite (orb_comm (negb (elem_bool b))).
  destruct (negb (elem_bool a) || negb (elem_bool b)); [reflexivity|]. cbv zeta.
  destruct td; [rewrite (H eq_refl)|]; apply overlap_enough_sym.
Qed.
Lemma halign_sym a b f td : (td = true -> e_dir a = e_dir b) ->
  horizontally_align_with a b f td = horizontally_align_with b a f td.
Proof.
  intros H. unfold horizontally_align_with. rewrite (orb_comm (negb (elem_bool b))).
  destruct (negb (elem_bool a) || negb (elem_bool b)); [reflexivity|]. cbv zeta.
  destruct td; [rewrite (H eq_refl)|]; apply overlap_enough_sym.
Qed.
Lemma same_row_sym a b : elem_bool a = true -> elem_bool b = true -> in_same_row a b = in_same_row b a.
Proof.
  intros Ha Hb. unfold in_same_row. rewrite Ha, Hb. cbn [negb orb].
  destruct (dir_eqb_spec (e_dir a) (e_dir b)) as [E|E], (dir_eqb_spec (e_dir b) (e_dir a)) as [E2|E2]; try congruence; [|reflexivity].
  cbn [negb]. cbv zeta. rewrite E. apply andb_comm.
Qed.
Lemma valign_iff a b f :
  vertically_align_with a b f false = true <->
  elem_bool a = true /\ elem_bool b = true /\
  f * qmin (rwidth (e_bbox a)) (rwidth (e_bbox b)) <= common (rx0 (e_bbox a)) (rx1 (e_bbox a)) (rx0 (e_bbox b)) (rx1 (e_bbox b)).
Proof.
  unfold vertically_align_with. destruct (elem_bool a), (elem_bool b); cbn [negb orb]; cbv zeta iota;
    try (split; [discriminate|intros (? & ? & ?); discriminate]).
  rewrite overlap_enough_iff. cbn [lo hi]. unfold rwidth. tauto.
Qed.
Lemma halign_iff a b f :
  horizontally_align_with a b f false = true <->
  elem_bool a = true /\ elem_bool b = true /\
  f * qmin (rheight (e_bbox a)) (rheight (e_bbox b)) <= common (ry0 (e_bbox a)) (ry1 (e_bbox a)) (ry0 (e_bbox b)) (ry1 (e_bbox b)).
Proof.
  unfold horizontally_align_with. destruct (elem_bool a), (elem_bool b); cbn [negb orb]; cbv zeta iota;
    try (split; [discriminate|intros (? & ? & ?); discriminate]).
  rewrite overlap_enough_iff. cbn [lo hi]. unfold rheight. tauto.
Qed.
(** With text direction: horizontal text compares x extents, any other direction y extents. *)
Lemma align_directed a b f : is_horizontal (e_dir a) = false ->
  vertically_align_with a b f true = horizontally_align_with a b f false /\
  horizontally_align_with a b f true = vertically_align_with a b f false.
Proof. intros H. unfold vertically_align_with, horizontally_align_with. rewrite H. split; reflexivity. Qed.
Lemma align_undirected a b f : is_horizontal (e_dir a) = true ->
  vertically_align_with a b f true = vertically_align_with a b f false /\
  horizontally_align_with a b f true = horizontally_align_with a b f false.
Proof. intros H. unfold vertically_align_with, horizontally_align_with. rewrite H. split; reflexivity. Qed.
Lemma common_self x0 x1 : common x0 x1 x0 x1 == x1 - x0.
Proof. unfold common, qmin, qmax. qcases; lra. Qed.
Lemma align_self a f td : proper (e_bbox a) -> f <= 1 ->
  vertically_align_with a a f td = true /\ horizontally_align_with a a f td = true.
Proof.
  intros Pa Hf. unfold vertically_align_with, horizontally_align_with.
  unfold elem_bool. rewrite (proper_truthy _ Pa). cbn [negb orb]. cbv zeta.
  assert (G : forall axis, overlap_enough axis (e_bbox a) (e_bbox a) f = true).
  { intros axis. apply overlap_enough_iff. rewrite common_self. destruct Pa as [H1 H2].
    assert (E : qmin (hi axis (e_bbox a) - lo axis (e_bbox a)) (hi axis (e_bbox a) - lo axis (e_bbox a)) == hi axis (e_bbox a) - lo axis (e_bbox a))
      by (unfold qmin; qcases; lra).
    rewrite E. assert (0 < hi axis (e_bbox a) - lo axis (e_bbox a)) by (destruct axis; cbn; lra). nra. }
  split; apply G.
Qed.
Lemma same_row_self a : proper (e_bbox a) -> in_same_row a a = true.
Proof.
  intros Pa. unfold in_same_row, elem_bool. rewrite (proper_truthy _ Pa).
  destruct (dir_eqb_spec (e_dir a) (e_dir a)) as [_|C]; [|congruence]. cbn [negb orb]. cbv zeta.
  destruct Pa as [H1 H2]. set (axis := is_horizontal (e_dir a)).
  assert (lo axis (e_bbox a) < hi axis (e_bbox a)) by (destruct axis; cbn; lra).
  apply andb_true_iff. split; apply qle_iff; unfold Qdiv; change (/ 2) with (1 # 2); lra.
Qed.
(** In the same row: each centre line is not below the other's lower edge, hence
    the row extents overlap by at least half of ... the extents meet. *)
Lemma same_row_meets a b : proper (e_bbox a) -> proper (e_bbox b) -> in_same_row a b = true ->
  e_dir a = e_dir b /\
  let axis := is_horizontal (e_dir a) in
  0 < common (lo axis (e_bbox a)) (hi axis (e_bbox a)) (lo axis (e_bbox b)) (hi axis (e_bbox b)) .
Proof.
  intros Pa Pb. unfold in_same_row, elem_bool. rewrite (proper_truthy _ Pb). cbn [negb orb].
  destruct (dir_eqb_spec (e_dir a) (e_dir b)) as [E|E]; cbn [negb]; [|discriminate]. cbv zeta.
  intros H. split; [exact E|]. apply andb_true_iff in H. destruct H as [H1 H2]. apply qle_iff in H1. apply qle_iff in H2.
  unfold Qdiv in *. change (/ 2) with (1 # 2) in *. destruct Pa, Pb.
  unfold common, qmin, qmax. destruct (is_horizontal (e_dir a)); cbn in *; qcases; lra.
Qed.

(* ------------------------------------------------------------------ *)
(** * Splitting by a region *)
Lemma split_spec l b th :
  match split_with_intersection l b th with
  | Some (l1, l2) =>
      (forall e, In e l -> ~ area (e_bbox e) == 0) /\
      l1 = filter (fun e => qle th (round2 (inside_ratio e b))) l /\
      l2 = filter (fun e => negb (qle th (round2 (inside_ratio e b)))) l
  | None => exists e, In e l /\ area (e_bbox e) == 0
  end.
Proof.
  induction l as [|e t IH]; cbn [split_with_intersection].
  - split; [intros e []|]. split; reflexivity.
  - cbv zeta. destruct (qeq_spec (area (e_bbox e)) 0) as [E|E].
    + exists e. split; [left; reflexivity|exact E].
    + destruct (split_with_intersection t b th) as [[l1 l2]|].
      * destruct IH as (H1 & H2 & H3). fold (inside_ratio e b). cbn [filter].
        destruct (qle th (round2 (inside_ratio e b))); cbn [negb].
        -- split; [intros x [<-|Hx]; auto|]. split; [f_equal; exact H2|exact H3].
        -- split; [intros x [<-|Hx]; auto|]. split; [exact H2|f_equal; exact H3].
      * destruct IH as (x & Hx & Ex). exists x. split; [right; exact Hx|exact Ex].
Qed.
Lemma filter_partition_perm {A} (f : A -> bool) l : Permutation (filter f l ++ filter (fun x => negb (f x)) l) l.
Proof.
  induction l as [|x t IH]; cbn; [constructor|]. destruct (f x); cbn.
  - constructor. exact IH.
  - eapply Permutation_trans; [apply Permutation_sym, Permutation_middle|]. constructor. exact IH.
Qed.
Lemma ratio_bounds e b : proper (e_bbox e) -> proper b -> 0 <= inside_ratio e b <= 1.
Proof.
  intros Pe Pb. unfold inside_ratio. destruct (area_inter_le (e_bbox e) b Pe Pb) as (H1 & H2 & _).
  pose proof (area_pos _ Pe) as Hp. split.
  - apply Qle_shift_div_l; [exact Hp|]. lra.
  - apply Qle_shift_div_r; [exact Hp|]. lra.
Qed.
Lemma ratio_covered e b : proper (e_bbox e) -> covers b (e_bbox e) -> inside_ratio e b == 1.
Proof.
  intros Pe (C1 & C2 & C3 & C4). destruct Pe as [P1 P2].
  assert (E : req (rinter (e_bbox e) b) (e_bbox e)).
  { unfold rinter. rewrite (proper_nonempty (e_bbox e)) by (split; assumption).
    rewrite (proper_nonempty b) by (unfold proper; split; lra). cbv zeta.
    unfold req, qmax, qmin. qcases; cbn; try (exfalso; lra); repeat split; lra. }
  unfold inside_ratio. destruct E as (E1 & E2 & E3 & E4).
  assert (Ea : area (rinter (e_bbox e) b) == area (e_bbox e)).
  { unfold area, rwidth, rheight. rewrite E1, E2, E3, E4. reflexivity. }
  rewrite Ea. apply Qmult_inv_r. pose proof (area_pos (e_bbox e) (conj P1 P2)). lra.
Qed.
Lemma ratio_apart e b : proper (e_bbox e) -> proper b ->
  (rx1 (e_bbox e) <= rx0 b \/ rx1 b <= rx0 (e_bbox e) \/ ry1 (e_bbox e) <= ry0 b \/ ry1 b <= ry0 (e_bbox e)) ->
  inside_ratio e b == 0.
Proof.
  intros Pe Pb H. unfold inside_ratio.
  assert (E : area (rinter (e_bbox e) b) == 0).
  { unfold rinter. rewrite !proper_nonempty by assumption. cbv zeta. destruct Pe, Pb.
    destruct (qlt_spec (qmin (rx1 (e_bbox e)) (rx1 b)) (qmax (rx0 (e_bbox e)) (rx0 b))); [reflexivity|].
    destruct (qlt_spec (qmin (ry1 (e_bbox e)) (ry1 b)) (qmax (ry0 (e_bbox e)) (ry0 b))); [reflexivity|]. cbn [orb].
    unfold area, rwidth, rheight. cbn.
    assert (G : qmin (rx1 (e_bbox e)) (rx1 b) - qmax (rx0 (e_bbox e)) (rx0 b) == 0 \/
                qmin (ry1 (e_bbox e)) (ry1 b) - qmax (ry0 (e_bbox e)) (ry0 b) == 0).
    { unfold qmin, qmax in *. destruct H as [H|[H|[H|H]]]; [left|left|right|right]; qcases; lra. }
    destruct G as [->| ->]; lra. }
  rewrite E. unfold Qdiv. lra.
Qed.
Lemma round2_0 x : 0 <= x -> 0 <= round2 x.
Proof.
  intros H. assert (E : round2 0 == 0) by (apply round_p_fixed, decimal_0). rewrite <- E. apply round_p_mono. exact H.
Qed.
Lemma filter_id_all {A} (f : A -> bool) l : (forall x, In x l -> f x = true) -> filter f l = l.
Proof.
  induction l as [|x t IH]; intros H; [reflexivity|]. cbn. rewrite (H x (or_introl eq_refl)). f_equal.
  apply IH. intros y Hy. apply H. right. exact Hy.
Qed.
Lemma filter_none_all {A} (f : A -> bool) l : (forall x, In x l -> f x = false) -> filter f l = [].
Proof.
  induction l as [|x t IH]; intros H; [reflexivity|]. cbn. rewrite (H x (or_introl eq_refl)).
  apply IH. intros y Hy. apply H. right. exact Hy.
Qed.
Lemma split_default_threshold l b :
  (forall e, In e l -> proper (e_bbox e)) -> proper b -> split_with_intersection l b 0 = Some (l, []).
Proof.
  intros H Hb. pose proof (split_spec l b 0) as S. destruct (split_with_intersection l b 0) as [[l1 l2]|].
  - destruct S as (_ & -> & ->). f_equal. f_equal.
    + apply filter_id_all. intros e He. apply qle_iff. apply round2_0. apply ratio_bounds; auto.
    + apply filter_none_all. intros e He. apply negb_false_iff. apply qle_iff. apply round2_0. apply ratio_bounds; auto.
  - destruct S as (e & He & E). pose proof (area_pos _ (H e He)). exfalso. lra.
Qed.

(* ------------------------------------------------------------------ *)
(** * Sorting *)
Lemma lex3 a b c a' b' c' : lex_le [a; b; c] [a'; b'; c'] = true <-> before3 a b c a' b' c'.
Proof.
  unfold before3. cbn [lex_le]. qcases; split; intros H; try reflexivity; try discriminate; try lra; exfalso; lra.
Qed.
Section SortKey.
Variable key : elem -> list Q.
Variable R : elem -> elem -> Prop.
Hypothesis key_R : forall a b, lex_le (key a) (key b) = true <-> R a b.
Lemma sort_key_facts l :
  Permutation l (sort_key key l) /\ StronglySorted R (sort_key key l) /\
  (forall a, filter (fun x => lex_le (key a) (key x) && lex_le (key x) (key a)) (sort_key key l) =
             filter (fun x => lex_le (key a) (key x) && lex_le (key x) (key a)) l) /\
  sort_key key (sort_key key l) = sort_key key l.
Proof.
  unfold sort_key. set (le := fun a b => lex_le (key a) (key b)).
  assert (T : forall x y, le x y = true \/ le y x = true) by (intros; apply lex_le_total).
  assert (Tr : forall x y z, le x y = true -> le y z = true -> le x z = true) by (intros x y z; apply lex_le_trans).
  split; [apply py_sort_perm|]. split; [|split].
  - pose proof (py_sort_sorted le T Tr l) as S. induction S as [|a l0 _ IH F]; constructor; [exact IH|].
    rewrite Forall_forall in *. intros x Hx. apply key_R. apply F. exact Hx.
  - intros a. apply (py_sort_stable le Tr a l).
  - apply (py_sort_idem le T Tr).
Qed.
End SortKey.
Lemma coll_dir_perm l l' : Permutation l l' -> coll_dir l = coll_dir l'.
Proof.
  (* the direction is that of all members if they agree, LEFT_RIGHT otherwise *)
  assert (G : forall l, coll_dir l = match l with [] => LEFT_RIGHT | e :: _ =>
             if forallb (fun x => dir_eqb (e_dir x) (e_dir e)) l then e_dir e else LEFT_RIGHT end).
  { intros [|e t]; [reflexivity|]. cbn. destruct (dir_eqb_spec (e_dir e) (e_dir e)) as [_|C]; [reflexivity|congruence]. }
  assert (K : forall l d, (exists e, In e l) -> (forall e, In e l -> e_dir e = d) -> coll_dir l = d).
  { intros l0 d (e0 & He0) H. rewrite G. destruct l0 as [|e t]; [destruct He0|].
    rewrite (proj2 (forallb_forall _ _)); [apply H; left; reflexivity|].
    intros x Hx. rewrite (H x Hx), (H e (or_introl eq_refl)). destruct (dir_eqb_spec d d); [reflexivity|congruence]. }
  assert (N : forall l, (forall d, (exists e, In e l) -> ~ forall e, In e l -> e_dir e = d) -> coll_dir l = LEFT_RIGHT).
  { intros l0 H. rewrite G. destruct l0 as [|e t]; [reflexivity|].
    destruct (forallb (fun x => dir_eqb (e_dir x) (e_dir e)) (e :: t)) eqn:F; [|reflexivity].
    exfalso. apply (H (e_dir e)); [exists e; left; reflexivity|]. intros x Hx. rewrite forallb_forall in F.
    specialize (F x Hx). destruct (dir_eqb_spec (e_dir x) (e_dir e)); [assumption|discriminate]. }
  intros P.
  assert (I : forall x, In x l <-> In x l') by (intros x; split; apply Permutation_in; [exact P|apply Permutation_sym; exact P]).
  destruct l as [|e t].
  - apply Permutation_nil in P. subst. reflexivity.
  - destruct (forallb (fun x => dir_eqb (e_dir x) (e_dir e)) (e :: t)) eqn:F.
    + assert (A : forall x, In x (e :: t) -> e_dir x = e_dir e).
      { intros x Hx. rewrite forallb_forall in F. specialize (F x Hx). destruct (dir_eqb_spec (e_dir x) (e_dir e)); [assumption|discriminate]. }
      rewrite (K (e :: t) (e_dir e)); [|exists e; left; reflexivity|exact A].
      symmetry. apply K; [exists e; apply I; left; reflexivity|]. intros x Hx. apply A. apply I. exact Hx.
    + assert (A : forall d, ~ forall x, In x (e :: t) -> e_dir x = d).
      { intros d Hd. enough (forallb (fun x => dir_eqb (e_dir x) (e_dir e)) (e :: t) = true) by congruence.
        apply forallb_forall. intros x Hx. rewrite (Hd x Hx), (Hd e (or_introl eq_refl)). destruct (dir_eqb_spec d d); [reflexivity|congruence]. }
      rewrite (N (e :: t)) by (intros d _; apply A). symmetry. apply N. intros d _ Hd. apply (A d).
      intros x Hx. apply Hd. apply I. exact Hx.
Qed.
Lemma reading_key_before h a b : lex_le (reading_key h a) (reading_key h b) = true <-> reading_before h a b.
Proof. destruct h; apply lex3. Qed.
Lemma line_key_before h a b : lex_le (line_key h a) (line_key h b) = true <-> line_before h a b.
Proof. destruct h; apply lex3. Qed.
Definition same_pos (R : elem -> elem -> Prop) (a b : elem) : Prop := R a b /\ R b a.

Lemma stable_of_filter (R : elem -> elem -> Prop) (f : elem -> elem -> bool) l l' :
  (forall a b, f a b = true <-> R a b /\ R b a) ->
  (forall a, filter (f a) l' = filter (f a) l) ->
  forall g, (forall a b, g b = true -> (g a = true <-> R a b /\ R b a)) ->
  filter g l' = filter g l.
Proof.
  intros Hf H g Hg.
  assert (E : forall b, g b = true -> forall a, g a = f b a).
  { intros b Hb a. destruct (f b a) eqn:F.
    - apply (Hg a b Hb). apply Hf in F. tauto.
    - destruct (g a) eqn:Ga; [|reflexivity]. exfalso.
      assert (R a b /\ R b a) by (apply (Hg a b Hb); exact Ga).
      assert (f b a = true) by (apply Hf; tauto). congruence. }
  destruct (filter g l) as [|b t] eqn:Fl.
  - destruct (filter g l') as [|b' t'] eqn:Fl'; [reflexivity|exfalso].
    assert (Hb' : In b' (filter g l')) by (rewrite Fl'; left; reflexivity). apply filter_In in Hb'. destruct Hb' as [Hi Hb'].
    assert (Hx : In b' (filter (f b') l')).
    { apply filter_In. split; [exact Hi|]. rewrite <- (E b' Hb'). exact Hb'. }
    rewrite H in Hx. apply filter_In in Hx. assert (In b' (filter g l)) by (apply filter_In; tauto). rewrite Fl in H0. destruct H0.
  - assert (Hb : In b (filter g l)) by (rewrite Fl; left; reflexivity). apply filter_In in Hb. destruct Hb as [_ Hb].
    rewrite <- Fl. rewrite (filter_ext g (f b)) by (intros a; apply E; exact Hb).
    rewrite (filter_ext g (f b) (E b Hb)). apply H.
Qed.

Lemma sort_reading_facts l : let h := is_horizontal (coll_dir l) in
  Permutation l (sort_in_reading_order l) /\ StronglySorted (reading_before h) (sort_in_reading_order l) /\
  (forall g, (forall a b, g b = true -> (g a = true <-> reading_before h a b /\ reading_before h b a)) ->
     filter g (sort_in_reading_order l) = filter g l) /\
  sort_in_reading_order (sort_in_reading_order l) = sort_in_reading_order l.
Proof.
  cbv zeta. unfold sort_in_reading_order. set (h := is_horizontal (coll_dir l)).
  destruct (sort_key_facts (reading_key h) (reading_before h) (reading_key_before h) l) as (P & S & F & I).
  split; [exact P|]. split; [exact S|]. split.
  - eapply stable_of_filter; [|exact F]. intros a b. rewrite andb_true_iff, !reading_key_before. tauto.
  - rewrite <- (coll_dir_perm _ _ P). fold h. exact I.
Qed.
Lemma sort_line_facts l : let h := is_horizontal (coll_dir l) in
  Permutation l (sort_in_line_order l) /\ StronglySorted (line_before h) (sort_in_line_order l) /\
  (forall g, (forall a b, g b = true -> (g a = true <-> line_before h a b /\ line_before h b a)) ->
     filter g (sort_in_line_order l) = filter g l) /\
  sort_in_line_order (sort_in_line_order l) = sort_in_line_order l.
Proof.
  cbv zeta. unfold sort_in_line_order. set (h := is_horizontal (coll_dir l)).
  destruct (sort_key_facts (line_key h) (line_before h) (line_key_before h) l) as (P & S & F & I).
  split; [exact P|]. split; [exact S|]. split.
  - eapply stable_of_filter; [|exact F]. intros a b. rewrite andb_true_iff, !line_key_before. tauto.
  - rewrite <- (coll_dir_perm _ _ P). fold h. exact I.
Qed.

(* ------------------------------------------------------------------ *)
(** * contains and get_main_bbox *)
Lemma contains_covered self e th : proper e -> covers self e -> th <= 1 -> contains self e th = true.
Proof.
  intros Pe C Ht. unfold contains. cbv zeta. pose proof (area_pos e Pe) as Ha.
  destruct (qeq_spec (area e) 0) as [E|_]; [exfalso; lra|].
  assert (Er : area (rinter self e) / area e == 1).
  { assert (Es : req (rinter self e) (rinter e self)) by apply rinter_sym.
    pose proof (ratio_covered (mkElem 0 e LEFT_RIGHT) self Pe C) as R. unfold inside_ratio in R. cbn [e_bbox] in R.
    rewrite <- R. destruct Es as (E1 & E2 & E3 & E4). unfold area, rwidth, rheight. rewrite E1, E2, E3, E4. reflexivity. }
  assert (Ef : round2 (area (rinter self e) / area e) == 1).
  { rewrite (round_p_comp 100 _ 1 Er). apply round_p_fixed. exists 100%Z. reflexivity. }
  destruct (qlt_spec (round2 (area (rinter self e) / area e)) th) as [L|_]; [exfalso; lra|].
  destruct C as (C1 & C2 & C3 & C4). unfold MINOR_DIST, rwidth, rheight. qcases; try reflexivity; exfalso; lra.
Qed.
Lemma contains_ratio self e th : proper self -> proper e -> contains self e th = true ->
  th - (1 # 200) <= area (rinter self e) / area e /\
  (rheight self <= rwidth self -> rwidth e <= rwidth self + 1) /\
  (rwidth self < rheight self -> rheight e <= rheight self + 1).
Proof.
  intros Ps Pe. unfold contains. cbv zeta. pose proof (area_pos e Pe) as Ha.
  destruct (qeq_spec (area e) 0) as [E|_]; [exfalso; lra|].
  destruct (qlt_spec (round2 (area (rinter self e) / area e)) th) as [L|L]; [discriminate|].
  pose proof (round2_bound (area (rinter self e) / area e)). unfold MINOR_DIST.
  qcases; intros H0; try discriminate; repeat split; intros; lra.
Qed.
Lemma contains_disjoint self e th : proper self -> proper e -> 0 < th ->
  (rx1 e <= rx0 self \/ rx1 self <= rx0 e \/ ry1 e <= ry0 self \/ ry1 self <= ry0 e) ->
  contains self e th = false.
Proof.
  intros Ps Pe Ht H. unfold contains. cbv zeta. pose proof (area_pos e Pe) as Ha.
  destruct (qeq_spec (area e) 0) as [E|_]; [exfalso; lra|].
  assert (Er : area (rinter self e) / area e == 0).
  { pose proof (ratio_apart (mkElem 0 e LEFT_RIGHT) self Pe Ps H) as R. unfold inside_ratio in R. cbn [e_bbox] in R.
    rewrite <- R. destruct (rinter_sym self e) as (E1 & E2 & E3 & E4). unfold area, rwidth, rheight. rewrite E1, E2, E3, E4. reflexivity. }
  assert (Ef : round2 (area (rinter self e) / area e) == 0).
  { rewrite (round_p_comp 100 _ 0 Er). apply round_p_fixed, decimal_0. }
  destruct (qlt_spec (round2 (area (rinter self e) / area e)) th) as [L|L]; [reflexivity|exfalso; lra].
Qed.

Lemma main_bbox_divisor b1 b2 : valid b1 -> valid b2 -> ~ area (rinter b1 b2) == 0 ->
  0 < qmin (area b1) (area b2).
Proof.
  intros V1 V2 H. destruct (valid_dec b1 V1) as [E|P1].
  { exfalso. apply H. unfold rinter. rewrite E. reflexivity. }
  destruct (valid_dec b2 V2) as [E|P2].
  { exfalso. apply H. unfold rinter. rewrite E. destruct (rect_empty b1); reflexivity. }
  pose proof (area_pos _ P1). pose proof (area_pos _ P2). unfold qmin. qcases; lra.
Qed.
Lemma main_bbox_covers b1 b2 th r : proper b1 -> proper b2 -> get_main_bbox b1 b2 th = Some r ->
  covers r b1 /\ covers r b2 /\ forall c, covers c b1 -> covers c b2 -> covers c r.
Proof.
  intros P1 P2. unfold get_main_bbox. cbv zeta. destruct (rect_bool (rinter b1 b2)); [|discriminate].
  destruct (qle th _); [|discriminate]. intros H. injection H as <-.
  destruct (runion_covers b1 b2 P1 P2) as (H1 & H2 & _ & H3). auto.
Qed.
Lemma main_bbox_ratio b1 b2 th : proper b1 -> proper b2 -> 1 # 1000000 < th ->
  (get_main_bbox b1 b2 th <> None <-> 0 < area (rinter b1 b2) /\ th * qmin (area b1) (area b2) <= area (rinter b1 b2)).
Proof.
  intros P1 P2 Ht. unfold get_main_bbox. cbv zeta.
  destruct (area_inter_le b1 b2 P1 P2) as (A0 & _ & _).
  assert (Hm : 0 < qmin (area b1) (area b2)).
  { pose proof (area_pos _ P1). pose proof (area_pos _ P2). unfold qmin. qcases; lra. }
  destruct (rect_bool (rinter b1 b2)) eqn:B.
  - destruct (qeq_spec (area (rinter b1 b2)) 0) as [E|E].
    + destruct (qle_spec th (1 # 1000000)); [lra|]. split; [congruence|]. intros [H _]. lra.
    + destruct (qle_spec th (area (rinter b1 b2) / qmin (area b1) (area b2))) as [L|L].
      * split; [intros _|congruence]. split; [lra|].
        apply (Qmult_le_r _ _ (qmin (area b1) (area b2)) Hm) in L.
        eapply Qle_trans; [exact L|]. unfold Qdiv. rewrite <- Qmult_assoc, (Qmult_comm (/ _)), Qmult_inv_r by lra. lra.
      * split; [congruence|]. intros [_ H]. exfalso. apply L. apply Qle_shift_div_l; assumption.
  - split; [congruence|]. intros [H _]. exfalso. unfold rect_bool in B.
    apply negb_false_iff in B. rewrite !andb_true_iff, !qeq_iff in B. destruct B as (((B1 & B2) & B3) & B4).
    unfold area, rwidth, rheight in H. rewrite B1, B2, B3, B4 in H. lra.
Qed.
