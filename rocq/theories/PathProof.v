(** Proofs for C38 and C57. *)
From Verif Require Import GeomModel GeomSpec GeomProof GraphModel GraphProof InterModel InterProof ShapeModel PathModel PathSpec.
From Coq Require Import Lia Permutation Lqa.
Open Scope Q_scope.

Lemma point_eqb_spec p q : point_eqb p q = true <-> same_point p q.
Proof. unfold point_eqb, same_point. rewrite andb_true_iff, !qeq_iff. tauto. Qed.
Lemma close_concat s : concat (close_current s) = s.
Proof. destruct s; [reflexivity|]. cbn. rewrite app_nil_r. reflexivity. Qed.
Lemma group_concat items : forall s c, concat (group_loop s c items) = s ++ filter drawable items.
Proof.
  induction items as [|i t IH]; intros s c; cbn [group_loop filter]; [rewrite close_concat, app_nil_r; reflexivity|].
  destruct i as [p q|p1 p2 p3 q|r|]; cbn [drawable].
  - destruct s as [|a s]; [rewrite IH; reflexivity|]. destruct (point_eqb p c); [rewrite IH, <- app_assoc; reflexivity|]. cbn [concat]. rewrite IH. reflexivity.
  - destruct s as [|a s]; [rewrite IH; reflexivity|]. destruct (point_eqb p1 c); [rewrite IH, <- app_assoc; reflexivity|]. cbn [concat]. rewrite IH. reflexivity.
  - rewrite concat_app, close_concat. cbn [concat]. rewrite IH. reflexivity.
  - apply IH.
Qed.
Lemma chained_snoc {A} (R : A -> A -> Prop) l a b : chained R (l ++ [a]) -> R a b -> chained R ((l ++ [a]) ++ [b]).
Proof.
  induction l as [|x l IH]; intros H Hr; cbn in *; [constructor; [exact Hr|constructor]|].
  destruct l as [|y l]; cbn in *; inversion H; subst; constructor; auto.
Qed.
(** State of the loop: the open group, ending at the cursor. *)
Definition open_ok (s : list ditem) (c : point) : Prop :=
  s = [] \/ exists t a, s = t ++ [a] /\ it_end a = Some c /\ (forall i, In i s -> linear i) /\ chained connected s.
Lemma open_good s c : open_ok s c -> s <> [] -> good_group s.
Proof. intros [->|(t & a & E & _ & L & Ch)] N; [contradiction|]. right. auto. Qed.
Lemma open_snoc s c i p q : open_ok s c -> it_start i = Some p -> it_end i = Some q -> linear i -> point_eqb p c = true -> s <> [] -> open_ok (s ++ [i]) q.
Proof.
  intros [->|(t & a & -> & Ea & L & Ch)] S1 S2 Li E N; [contradiction|]. right. exists (t ++ [a]), i. split; [reflexivity|]. split; [exact S2|]. split.
  - intros x Hx. apply in_app_or in Hx. destruct Hx as [Hx|[<-|[]]]; [apply L; exact Hx|exact Li].
  - apply chained_snoc; [exact Ch|]. apply point_eqb_spec in E. exists c, p. split; [exact Ea|]. split; [exact S1|]. unfold same_point in *. destruct E. split; lra.
Qed.
Lemma open_one i q : it_end i = Some q -> linear i -> open_ok [i] q.
Proof. intros E L. right. exists [], i. split; [reflexivity|]. split; [exact E|]. split; [intros x [<-|[]]; exact L|constructor]. Qed.
Lemma linear_rect_end a r : ~ connected a (IRect r). Proof. intros (p & q & _ & H & _). discriminate. Qed.
Lemma linear_rect_start a r : ~ connected (IRect r) a. Proof. intros (p & q & H & _). discriminate. Qed.
Lemma apart_open s c i p : open_ok s c -> it_start i = Some p -> point_eqb p c = false -> forall t', apart s (i :: t').
Proof.
  intros [->|(t & a & -> & Ea & _ & _)] S1 E t' x y u u' E1 E2.
  - destruct u; discriminate.
  - apply app_inj_tail in E1. destruct E1 as (_ & <-). injection E2 as <- _. intros (p' & q' & H1 & H2 & H3). rewrite Ea in H1. injection H1 as <-. rewrite S1 in H2. injection H2 as <-.
    assert (X : point_eqb p c = true) by (apply point_eqb_spec; unfold same_point in *; destruct H3; split; lra). congruence.
Qed.
Lemma apart_rect_r s r : apart s [IRect r].
Proof. intros a b t t' _ E. injection E as <- _. apply linear_rect_end. Qed.
Lemma apart_rect_l r g : apart [IRect r] g.
Proof. intros a b t t' E _. destruct t as [|x [|y t]]; try discriminate. injection E as <-. apply linear_rect_start. Qed.
(** The first group of the rest starts with the open group. *)
Lemma loop_head items : forall s c, s <> [] -> exists u rest, group_loop s c items = (s ++ u) :: rest.
Proof.
  induction items as [|i t IH]; intros s c N.
  - exists [], []. cbn. rewrite app_nil_r. destruct s; [contradiction|reflexivity].
  - destruct i as [p q|p1 p2 p3 q|r|]; cbn [group_loop]; (destruct s as [|a s]; [contradiction|]).
    + destruct (point_eqb p c); [|exists [], (group_loop [ILine p q] q t); rewrite app_nil_r; reflexivity]. destruct (IH ((a :: s) ++ [ILine p q]) q) as (u & rest & ->); [discriminate|]. exists (ILine p q :: u), rest. rewrite <- app_assoc. reflexivity.
    + destruct (point_eqb p1 c); [|exists [], (group_loop [ICurve p1 p2 p3 q] q t); rewrite app_nil_r; reflexivity]. destruct (IH ((a :: s) ++ [ICurve p1 p2 p3 q]) q) as (u & rest & ->); [discriminate|]. exists (ICurve p1 p2 p3 q :: u), rest. rewrite <- app_assoc. reflexivity.
    + exists [], ([IRect r] :: group_loop [] c t). rewrite app_nil_r. reflexivity.
    + apply IH. exact N.
Qed.
Lemma chained_cons_inv {A} (R : A -> A -> Prop) g l : (forall g', hd_error l = Some g' -> R g g') -> chained R l -> chained R (g :: l).
Proof. intros H C. destruct l as [|x l]; [constructor|]. constructor; [apply H; reflexivity|exact C]. Qed.
Lemma group_ok items : forall s c, open_ok s c -> (forall g, In g (group_loop s c items) -> good_group g) /\ chained apart (group_loop s c items).
Proof.
  induction items as [|i t IH]; intros s c O.
  - cbn [group_loop]. destruct s as [|a s]; cbn [close_current]; [split; [intros g []|constructor]|]. split; [intros g [<-|[]]; apply (open_good _ c O); discriminate|constructor].
  - destruct i as [p q|p1 p2 p3 q|r|]; cbn [group_loop].
    + destruct s as [|a s]; [apply IH, open_one; [reflexivity|exact I]|]. destruct (point_eqb p c) eqn:E; [apply IH, (open_snoc _ c (ILine p q) p q O eq_refl eq_refl I E); discriminate|].
      destruct (IH [ILine p q] q) as (G & C); [apply open_one; [reflexivity|exact I]|]. split; [intros g [<-|Hg]; [apply (open_good _ c O); discriminate|apply G; exact Hg]|].
      apply chained_cons_inv; [|exact C]. intros g' Hg'. destruct (loop_head t [ILine p q] q) as (u & rest & Eq); [discriminate|]. rewrite Eq in Hg'. injection Hg' as <-. apply (apart_open _ c (ILine p q) p O); [reflexivity|exact E].
    + destruct s as [|a s]; [apply IH, open_one; [reflexivity|exact I]|]. destruct (point_eqb p1 c) eqn:E; [apply IH, (open_snoc _ c (ICurve p1 p2 p3 q) p1 q O eq_refl eq_refl I E); discriminate|].
      destruct (IH [ICurve p1 p2 p3 q] q) as (G & C); [apply open_one; [reflexivity|exact I]|]. split; [intros g [<-|Hg]; [apply (open_good _ c O); discriminate|apply G; exact Hg]|].
      apply chained_cons_inv; [|exact C]. intros g' Hg'. destruct (loop_head t [ICurve p1 p2 p3 q] q) as (u & rest & Eq); [discriminate|]. rewrite Eq in Hg'. injection Hg' as <-. apply (apart_open _ c (ICurve p1 p2 p3 q) p1 O); [reflexivity|exact E].
    + destruct (IH [] c (or_introl eq_refl)) as (G & C).
      assert (C2 : chained apart ([IRect r] :: group_loop [] c t)) by (apply chained_cons_inv; [intros g' _; apply apart_rect_l|exact C]).
      assert (G2 : forall g, In g ([IRect r] :: group_loop [] c t) -> good_group g) by (intros g [<-|Hg]; [left; exists r; reflexivity|apply G; exact Hg]).
      destruct s as [|a s]; cbn [close_current app]; [auto|]. split.
      * intros g [<-|Hg]; [apply (open_good _ c O); discriminate|apply G2; exact Hg].
      * apply chained_cons_inv; [|exact C2]. intros g' Hg'. injection Hg' as <-. apply apart_rect_r.
    + apply IH. exact O.
Qed.

(* ------------------------------------------------------------------ *)
(** * Strokes *)
Lemma seg_edges w i : flat_map (seg_strokes w) (seg_of i) = edges w i.
Proof. destruct i; reflexivity. Qed.
Lemma seg_edges_all w g : flat_map (seg_strokes w) (flat_map seg_of g) = flat_map (edges w) g.
Proof. induction g as [|i g IH]; [reflexivity|]. cbn [flat_map]. rewrite flat_map_app, IH, seg_edges. reflexivity. Qed.
Lemma flat_map_concat' {A B} (f : A -> list B) ls : flat_map f (concat ls) = flat_map (flat_map f) ls.
Proof. induction ls as [|l ls IH]; [reflexivity|]. cbn [concat flat_map]. rewrite flat_map_app, IH. reflexivity. Qed.
Lemma lines_eq p : lines_of_path p = match pt_color p with None => [] | Some _ => flat_map (fun g => flat_map (edges (pt_width p)) g ++ flat_map (seg_strokes (pt_width p)) (closing (pt_close p) g)) (group_segments (pt_items p)) end.
Proof.
  unfold lines_of_path, path_shapes. rewrite flat_map_app.
  assert (F : forall o, flat_map (fun x => match x with RLine l _ => [l] | RFill _ _ => [] end) match o with None => [] | Some c => map (fun segs => RFill (fst (bbox_area segs)) c) (path_segments p) end = []).
  { intros [c|]; [|reflexivity]. induction (path_segments p) as [|a l IH]; [reflexivity|exact IH]. }
  rewrite F, app_nil_r. destruct (pt_color p) as [c|]; [|reflexivity].
  assert (M : forall l, flat_map (fun x => match x with RLine l _ => [l] | RFill _ _ => [] end) (map (fun l => RLine l c) l) = l) by (induction l as [|a l IH]; [reflexivity|cbn; rewrite IH; reflexivity]).
  rewrite M. unfold path_segments. induction (group_segments (pt_items p)) as [|g gs IH]; [reflexivity|]. cbn [map flat_map]. rewrite IH. f_equal. unfold segments. rewrite flat_map_app, seg_edges_all. reflexivity.
Qed.
Lemma fills_eq p : fills_of_path p = match pt_fill p with None => [] | Some _ => map (fun segs => fst (bbox_area segs)) (path_segments p) end.
Proof.
  unfold fills_of_path, path_shapes. rewrite flat_map_app.
  assert (F : forall o, flat_map (fun x => match x with RFill b _ => [b] | RLine _ _ => [] end) match o with None => [] | Some c => map (fun l => RLine l c) (flat_map (fun segs => flat_map (seg_strokes (pt_width p)) segs) (path_segments p)) end = []).
  { intros [c|]; [|reflexivity]. induction (flat_map (fun segs => flat_map (seg_strokes (pt_width p)) segs) (path_segments p)) as [|a l IH]; [reflexivity|exact IH]. }
  rewrite F. clear F. cbn [app]. destruct (pt_fill p) as [c|]; [|reflexivity]. induction (path_segments p) as [|a l IH]; [reflexivity|]. cbn [map flat_map app]. rewrite IH. reflexivity.
Qed.
Lemma closing_ok w g : good_group g -> closing_line w g (flat_map (seg_strokes w) (closing true g)).
Proof.
  intros G. unfold closing. cbn [andb]. destruct (2 <=? length g)%nat eqn:E; [apply Nat.leb_le in E|apply Nat.leb_gt in E; left; split; [lia|reflexivity]].
  destruct G as [(r & ->)|(N & L & _)]; [cbn in E; lia|]. destruct g as [|a g]; [contradiction|]. destruct (exists_last (l := g)) as (t & b & ->); [destruct g; [cbn in E; lia|discriminate]|].
  right. assert (La : linear a) by (apply L; left; reflexivity). assert (Lb : linear b) by (apply L; right; apply in_or_app; right; left; reflexivity).
  assert (Hl : last (a :: t ++ [b]) IOther = b) by (change (a :: t ++ [b]) with ((a :: t) ++ [b]); apply last_last). rewrite Hl. cbn [hd].
  exists a, b, t. destruct a as [a1 a2|a1 a2 a3 a4| |]; try contradiction; (destruct b as [b1 b2|b1 b2 b3 b4| |]; try contradiction); cbn [it_end it_start]; do 2 eexists; repeat split.
Qed.

(* ------------------------------------------------------------------ *)
(** * Boxes *)
Lemma q_min_spec l : l <> [] -> In (q_min l) l /\ forall x, In x l -> q_min l <= x.
Proof.
  assert (G : forall l x, In (fold_left qmin l x) (x :: l) /\ (forall y, In y (x :: l) -> fold_left qmin l x <= y)).
  { induction l0 as [|y l0 IH]; intros x; cbn [fold_left]; [split; [left; reflexivity|intros y [<-|[]]; lra]|].
    destruct (IH (qmin x y)) as (I1 & I2). unfold qmin in *. destruct (qlt_spec y x) as [H|H].
    - split; [destruct I1 as [<-|I1]; [right; left; reflexivity|right; right; exact I1]|]. intros z [<-|[<-|Hz]]; [specialize (I2 y (or_introl eq_refl)); lra|apply I2; left; reflexivity|apply I2; right; exact Hz].
    - split; [destruct I1 as [<-|I1]; [left; reflexivity|right; right; exact I1]|]. intros z [<-|[<-|Hz]]; [apply I2; left; reflexivity|specialize (I2 x (or_introl eq_refl)); lra|apply I2; right; exact Hz]. }
  destruct l as [|x l]; [contradiction|]. intros _. apply G.
Qed.
Lemma q_max_spec l : l <> [] -> In (q_max l) l /\ forall x, In x l -> x <= q_max l.
Proof.
  assert (G : forall l x, In (fold_left qmax l x) (x :: l) /\ (forall y, In y (x :: l) -> y <= fold_left qmax l x)).
  { induction l0 as [|y l0 IH]; intros x; cbn [fold_left]; [split; [left; reflexivity|intros y [<-|[]]; lra]|].
    destruct (IH (qmax x y)) as (I1 & I2). unfold qmax in *. destruct (qlt_spec x y) as [H|H].
    - split; [destruct I1 as [<-|I1]; [right; left; reflexivity|right; right; exact I1]|]. intros z [<-|[<-|Hz]]; [specialize (I2 y (or_introl eq_refl)); lra|apply I2; left; reflexivity|apply I2; right; exact Hz].
    - split; [destruct I1 as [<-|I1]; [left; reflexivity|right; right; exact I1]|]. intros z [<-|[<-|Hz]]; [apply I2; left; reflexivity|specialize (I2 x (or_introl eq_refl)); lra|apply I2; right; exact Hz]. }
  destruct l as [|x l]; [contradiction|]. intros _. apply G.
Qed.
Lemma round2_bound x : - (1 # 200) <= round2 x - x <= 1 # 200.
Proof.
  pose proof (round_half_even_bound (x * inject_Z 100)) as H. unfold round2, round_p. change (inject_Z 100) with 100 in *.
  assert (E : inject_Z (round_half_even (x * 100)) / 100 - x == (inject_Z (round_half_even (x * 100)) - x * 100) * (1 # 100)) by field. rewrite E. lra.
Qed.
Lemma round2_comp x y : x == y -> round2 x == round2 y.
Proof. intros E. unfold round2. apply Qle_antisym; apply round_p_mono; lra. Qed.
(** Points of a group of lines and curves. *)
Lemma seg_points_of g : (forall i, In i g -> linear i) -> flat_map seg_points (flat_map seg_of g) = flat_map points_of g.
Proof.
  induction g as [|i g IH]; intros L; [reflexivity|]. cbn [flat_map]. rewrite flat_map_app, IH by (intros x Hx; apply L; right; exact Hx). f_equal.
  specialize (L i (or_introl eq_refl)). destruct i; try contradiction; reflexivity.
Qed.
Lemma closing_points close g : (forall x, In x (flat_map seg_points (closing close g)) -> In x (flat_map points_of g)).
Proof.
  intros x Hx. unfold closing in Hx. destruct (close && _); [|destruct Hx]. destruct (it_end (last g IOther)) as [p|] eqn:E1; [|destruct Hx]. destruct (it_start (hd IOther g)) as [q|] eqn:E2; [|destruct Hx].
  cbn in Hx. apply in_flat_map. destruct Hx as [<-|[<-|[]]].
  - exists (last g IOther). assert (N : g <> []) by (intros ->; discriminate E1). split; [destruct (exists_last N) as (t & a & ->); rewrite last_last; apply in_or_app; right; left; reflexivity|].
    destruct (last g IOther); try discriminate; injection E1 as <-; cbn; tauto.
  - exists (hd IOther g). destruct g as [|a g]; [discriminate E2|]. split; [left; reflexivity|]. destruct a; try discriminate; injection E2 as <-; cbn; tauto.
Qed.
Lemma group_box g close : good_group g -> (forall r, In (IRect r) g -> valid r) ->
  let b := fst (bbox_area (segments close g)) in
  (forall i p, In i g -> In p (points_of i) -> rx0 b - (1 # 200) <= fst p <= rx1 b + (1 # 200) /\ ry0 b - (1 # 200) <= snd p <= ry1 b + (1 # 200)) /\
  (exists i p, In i g /\ In p (points_of i) /\ Qabs (rx0 b - fst p) <= 1 # 200) /\ (exists i p, In i g /\ In p (points_of i) /\ Qabs (rx1 b - fst p) <= 1 # 200) /\
  (exists i p, In i g /\ In p (points_of i) /\ Qabs (ry0 b - snd p) <= 1 # 200) /\ (exists i p, In i g /\ In p (points_of i) /\ Qabs (ry1 b - snd p) <= 1 # 200).
Proof.
  intros G V. assert (Z : forall x, Qabs (x - x) <= 1 # 200) by (intros x; assert (E : x - x == 0) by lra; rewrite E; vm_compute; discriminate).
  destruct G as [(r & ->)|(N & L & _)]; cbv zeta.
  - assert (E : segments close [IRect r] = [SRect r]) by (unfold segments, closing; cbn; rewrite andb_false_r; reflexivity). rewrite E. cbn [bbox_area fst]. specialize (V r (or_introl eq_refl)). destruct V as (V1 & V2). split.
    + intros i p [<-|[]] [<-|[<-|[]]]; cbn [fst snd]; lra.
    + repeat split; exists (IRect r); [exists (rx0 r, ry0 r)|exists (rx1 r, ry1 r)|exists (rx0 r, ry0 r)|exists (rx1 r, ry1 r)]; (split; [left; reflexivity|split; [cbn; tauto|apply Z]]).
  - set (ps := flat_map seg_points (segments close g)).
    assert (E : fst (bbox_area (segments close g)) = mkRect (round2 (q_min (map fst ps))) (round2 (q_min (map snd ps))) (round2 (q_max (map fst ps))) (round2 (q_max (map snd ps)))).
    { unfold bbox_area. fold ps. destruct (segments close g) as [|[p q|q|r] [|]] eqn:Es; try reflexivity. exfalso. unfold segments in Es.
      destruct g as [|i g']; [contradiction|]. pose proof (L i (or_introl eq_refl)) as Li. destruct i; try contradiction; discriminate Es. }
    assert (I1 : forall x, In x ps <-> In x (flat_map points_of g)).
    { intros x. unfold ps, segments. rewrite flat_map_app, seg_points_of by exact L. rewrite in_app_iff. split; [intros [H|H]; [exact H|apply (closing_points _ _ _ H)]|left; assumption]. }
    assert (Np : ps <> []).
    { destruct g as [|i g']; [contradiction|]. pose proof (L i (or_introl eq_refl)) as Li. destruct i as [p q|p p2 p3 p4| |]; try contradiction; intros Ep; assert (X : In p ps) by (apply I1; cbn; tauto); rewrite Ep in X; destruct X. }
    assert (Nf : forall f : point -> Q, map f ps <> []) by (intros f Em; apply map_eq_nil in Em; contradiction).
    rewrite E. cbn [rx0 rx1 ry0 ry1].
    destruct (q_min_spec _ (Nf fst)) as (A1 & A2). destruct (q_min_spec _ (Nf snd)) as (B1 & B2). destruct (q_max_spec _ (Nf fst)) as (C1 & C2). destruct (q_max_spec _ (Nf snd)) as (D1 & D2).
    assert (At : forall (f : point -> Q) v, In v (map f ps) -> exists i p, In i g /\ In p (points_of i) /\ Qabs (round2 v - f p) <= 1 # 200).
    { intros f v Hv. apply in_map_iff in Hv. destruct Hv as (p & <- & Hp). apply I1, in_flat_map in Hp. destruct Hp as (i & Hi & Hp). exists i, p. split; [exact Hi|]. split; [exact Hp|]. apply Qabs_Qle_condition. apply round2_bound. }
    split; [|split; [exact (At fst _ A1)|split; [exact (At fst _ C1)|split; [exact (At snd _ B1)|exact (At snd _ D1)]]]].
    intros i p Hi Hp. assert (Ip : In p ps) by (apply I1, in_flat_map; exists i; auto).
    assert (Lo : forall m x, m <= x -> round2 m - (1 # 200) <= x) by (intros m x Hm; pose proof (round2_bound m); lra).
    assert (Up : forall m x, x <= m -> x <= round2 m + (1 # 200)) by (intros m x Hm; pose proof (round2_bound m); lra).
    repeat split; [apply Lo, A2|apply Up, C2|apply Lo, B2|apply Up, D2]; (apply (in_map fst) || apply (in_map snd)); exact Ip.
Qed.

(* ------------------------------------------------------------------ *)
(** * Axis-parallel paths *)
Lemma area_zero_w b : rx0 b == rx1 b -> qeq (area b) 0 = true.
Proof. intros E. apply qeq_iff. unfold area, rwidth. assert (Z : rx1 b - rx0 b == 0) by lra. rewrite Z. ring. Qed.
Lemma area_zero_h b : ry0 b == ry1 b -> qeq (area b) 0 = true.
Proof. intros E. apply qeq_iff. unfold area, rheight. assert (Z : ry1 b - ry0 b == 0) by lra. rewrite Z. ring. Qed.
Lemma single_iso close i : axis_parallel i -> drawable i = true -> seg_iso (segments close [i]) = true.
Proof.
  intros H D. assert (E : segments close [i] = seg_of i) by (unfold segments, closing; cbn [flat_map length Nat.leb]; rewrite andb_false_r, !app_nil_r; reflexivity). rewrite E.
  destruct i as [p q| |r|]; try contradiction; try discriminate.
  - unfold seg_iso. cbn [seg_of bbox_area flat_map seg_points app map q_min q_max fold_left]. apply Bool.orb_true_iff. left.
    destruct H as [H|H]; [apply area_zero_w|apply area_zero_h]; cbn [rx0 rx1 ry0 ry1]; apply round2_comp; unfold qmin, qmax;
      [destruct (qlt_spec (fst q) (fst p)), (qlt_spec (fst p) (fst q)); lra|destruct (qlt_spec (snd q) (snd p)), (qlt_spec (snd p) (snd q)); lra].
  - unfold seg_iso. cbn [seg_of bbox_area]. destruct (qeq (area r) 0) eqn:Ea; [reflexivity|]. cbn [orb]. unfold ISO_FACTOR.
    assert (Na : ~ area r == 0) by (intros X; apply qeq_iff in X; congruence). destruct (qle_spec (9 # 10) (area r / area r)) as [L|L]; [reflexivity|].
    exfalso. apply L. assert (X : area r / area r == 1) by (field; exact Na). rewrite X. vm_compute. discriminate.
Qed.
(** Box of four corner points. *)
Lemma seg_iso_pts segs ps : flat_map seg_points segs = ps -> (forall r, segs <> [SRect r]) -> seg_iso segs =
  (let b := mkRect (round2 (q_min (map fst ps))) (round2 (q_min (map snd ps))) (round2 (q_max (map fst ps))) (round2 (q_max (map snd ps))) in
   qeq (area b) 0 || qle ISO_FACTOR ((if closed_curve ps then qabs (shoelace ps / 2) else 0) / area b)).
Proof.
  intros <- N. unfold seg_iso, bbox_area. destruct segs as [|[| |r] [|]]; try reflexivity. exfalso. exact (N r eq_refl).
Qed.
Lemma q_min_eq l m : In m l -> (forall x, In x l -> m <= x) -> q_min l == m.
Proof. intros I M. assert (N : l <> []) by (intros ->; destruct I). destruct (q_min_spec l N) as (A & B). specialize (M _ A). specialize (B _ I). lra. Qed.
Lemma q_max_eq l m : In m l -> (forall x, In x l -> x <= m) -> q_max l == m.
Proof. intros I M. assert (N : l <> []) by (intros ->; destruct I). destruct (q_max_spec l N) as (A & B). specialize (M _ A). specialize (B _ I). lra. Qed.
Lemma qabs_zero x : qabs (x - x) == 0.
Proof. unfold qabs. destruct (qlt_spec (x - x) 0); lra. Qed.
Lemma area_bounds x0 y0 x1 y1 : 1 # 5 <= x1 - x0 -> 1 # 5 <= y1 - y0 ->
  let a := (round2 x1 - round2 x0) * (round2 y1 - round2 y0) in 0 < a /\ (9 # 10) * a <= (x1 - x0) * (y1 - y0).
Proof.
  intros H1 H2. cbv zeta. pose proof (round2_bound x0). pose proof (round2_bound x1). pose proof (round2_bound y0). pose proof (round2_bound y1).
  generalize dependent (round2 x0). generalize dependent (round2 x1). generalize dependent (round2 y0). generalize dependent (round2 y1). intros b B a A d D c C.
  assert (W : (19 # 20) * (x1 - x0) <= d - c) by lra. assert (W2 : d - c <= (21 # 20) * (x1 - x0)) by lra.
  assert (V : (19 # 20) * (y1 - y0) <= b - a) by lra. assert (V2 : b - a <= (21 # 20) * (y1 - y0)) by lra.
  clear A B C D. set (w := x1 - x0) in *. set (h := y1 - y0) in *. set (W' := d - c) in *. set (H' := b - a) in *. clearbody w h W' H'.
  split; [nra|]. assert (W' * H' <= ((21 # 20) * w) * H') by nra. assert (((21 # 20) * w) * H' <= ((21 # 20) * w) * ((21 # 20) * h)) by nra. nra.
Qed.
Lemma qeq_self x : qeq x x = true. Proof. apply qeq_iff. reflexivity. Qed.
Lemma point_eqb_self p : point_eqb p p = true. Proof. unfold point_eqb. rewrite !qeq_self. reflexivity. Qed.
(** A closed list of points around a rectangle, whatever repetitions. *)
Lemma rect_points_iso segs ps x0 y0 x1 y1 : flat_map seg_points segs = ps -> (forall r, segs <> [SRect r]) -> 1 # 5 <= x1 - x0 -> 1 # 5 <= y1 - y0 ->
  (forall p, In p ps -> (fst p == x0 \/ fst p == x1) /\ (snd p == y0 \/ snd p == y1)) -> In (x0, y0) ps -> In (x1, y1) ps -> closed_curve ps = true -> shoelace ps == 2 * ((x1 - x0) * (y1 - y0)) -> seg_iso segs = true.
Proof.
  intros E N W H P P0 P1 Cl Sh. rewrite (seg_iso_pts segs ps E N). cbv zeta. rewrite Cl. apply Bool.orb_true_iff. right.
  assert (Ex0 : q_min (map fst ps) == x0).
  { apply q_min_eq; [change x0 with (fst (x0, y0)); apply in_map; exact P0|]. intros x Hx. apply in_map_iff in Hx. destruct Hx as (p & <- & Hp). destruct (P p Hp) as ([X|X] & _); lra. }
  assert (Ex1 : q_max (map fst ps) == x1).
  { apply q_max_eq; [change x1 with (fst (x1, y1)); apply in_map; exact P1|]. intros x Hx. apply in_map_iff in Hx. destruct Hx as (p & <- & Hp). destruct (P p Hp) as ([X|X] & _); lra. }
  assert (Ey0 : q_min (map snd ps) == y0).
  { apply q_min_eq; [change y0 with (snd (x0, y0)); apply in_map; exact P0|]. intros x Hx. apply in_map_iff in Hx. destruct Hx as (p & <- & Hp). destruct (P p Hp) as (_ & [X|X]); lra. }
  assert (Ey1 : q_max (map snd ps) == y1).
  { apply q_max_eq; [change y1 with (snd (x1, y1)); apply in_map; exact P1|]. intros x Hx. apply in_map_iff in Hx. destruct Hx as (p & <- & Hp). destruct (P p Hp) as (_ & [X|X]); lra. }
  destruct (area_bounds x0 y0 x1 y1 W H) as (A1 & A2). unfold area, rwidth, rheight. cbn [rx0 rx1 ry0 ry1].
  assert (EA : (round2 (q_max (map fst ps)) - round2 (q_min (map fst ps))) * (round2 (q_max (map snd ps)) - round2 (q_min (map snd ps))) == (round2 x1 - round2 x0) * (round2 y1 - round2 y0)).
  { rewrite (round2_comp _ _ Ex0), (round2_comp _ _ Ex1), (round2_comp _ _ Ey0), (round2_comp _ _ Ey1). reflexivity. }
  assert (ES : qabs (shoelace ps / 2) == (x1 - x0) * (y1 - y0)).
  { assert (Z : shoelace ps / 2 == (x1 - x0) * (y1 - y0)) by (rewrite Sh; field). unfold qabs. destruct (qlt_spec (shoelace ps / 2) 0) as [L|L]; [exfalso; nra|exact Z]. }
  destruct (qle_spec ISO_FACTOR (qabs (shoelace ps / 2) / ((round2 (q_max (map fst ps)) - round2 (q_min (map fst ps))) * (round2 (q_max (map snd ps)) - round2 (q_min (map snd ps)))))) as [L|L]; [reflexivity|].
  exfalso. apply L. rewrite ES, EA. apply Qle_shift_div_l; [exact A1|]. exact A2.
Qed.
Lemma three_iso x0 y0 x1 y1 : 1 # 5 <= x1 - x0 -> 1 # 5 <= y1 - y0 -> seg_iso (segments true [ILine (x0, y0) (x1, y0); ILine (x1, y0) (x1, y1); ILine (x1, y1) (x0, y1)]) = true.
Proof.
  intros W H. eapply (rect_points_iso _ _ x0 y0 x1 y1); [reflexivity|discriminate|exact W|exact H|..]; cbn [segments flat_map seg_of seg_points closing andb length Nat.leb it_end it_start last hd app].
  - intros p Hp. repeat (destruct Hp as [<-|Hp]; [cbn [fst snd]; split; (left; reflexivity) || (right; reflexivity)|]). destruct Hp.
  - left. reflexivity.
  - right; right; right; left. reflexivity.
  - unfold closed_curve. cbn [last fst snd]. destruct (qlt_spec (qabs (x0 - x0) + qabs (y0 - y0)) (1 # 1000)) as [L|L]; [reflexivity|]. exfalso. apply L. rewrite !qabs_zero. reflexivity.
  - cbn [shoelace fst snd]. ring.
Qed.
Lemma four_iso close x0 y0 x1 y1 : 1 # 5 <= x1 - x0 -> 1 # 5 <= y1 - y0 -> seg_iso (segments close [ILine (x0, y0) (x1, y0); ILine (x1, y0) (x1, y1); ILine (x1, y1) (x0, y1); ILine (x0, y1) (x0, y0)]) = true.
Proof.
  intros W H. destruct close; (eapply (rect_points_iso _ _ x0 y0 x1 y1); [reflexivity|discriminate|exact W|exact H|..]; cbn [segments flat_map seg_of seg_points closing andb length Nat.leb it_end it_start last hd app]).
  1,6: intros p Hp; repeat (destruct Hp as [<-|Hp]; [cbn [fst snd]; split; (left; reflexivity) || (right; reflexivity)|]); destruct Hp.
  1,5: left; reflexivity.
  1,4: right; right; right; left; reflexivity.
  1,3: unfold closed_curve; cbn [last fst snd]; destruct (qlt_spec (qabs (x0 - x0) + qabs (y0 - y0)) (1 # 1000)) as [L|L]; [reflexivity|]; exfalso; apply L; rewrite !qabs_zero; reflexivity.
  all: cbn [shoelace fst snd]; ring.
Qed.
(** Not closed and spread in both directions: not axis-parallel. *)
Lemma open_not_iso segs ps : flat_map seg_points segs = ps -> (forall r, segs <> [SRect r]) -> closed_curve ps = false ->
  (exists p q, In p ps /\ In q ps /\ 1 # 50 <= fst q - fst p) -> (exists p q, In p ps /\ In q ps /\ 1 # 50 <= snd q - snd p) -> seg_iso segs = false.
Proof.
  intros E N Cl (a & b & Ia & Ib & Hx) (c & d & Ic & Id & Hy). rewrite (seg_iso_pts segs ps E N). cbv zeta. rewrite Cl.
  assert (Nx : map fst ps <> []) by (intros X; apply map_eq_nil in X; rewrite X in Ia; destruct Ia). assert (Ny : map snd ps <> []) by (intros X; apply map_eq_nil in X; rewrite X in Ia; destruct Ia).
  destruct (q_min_spec _ Nx) as (_ & A). destruct (q_max_spec _ Nx) as (_ & B). destruct (q_min_spec _ Ny) as (_ & C). destruct (q_max_spec _ Ny) as (_ & D).
  assert (W : 0 < round2 (q_max (map fst ps)) - round2 (q_min (map fst ps))).
  { pose proof (A _ (in_map fst _ _ Ia)) as X1. pose proof (B _ (in_map fst _ _ Ib)) as X2. generalize dependent (q_max (map fst ps)). generalize dependent (q_min (map fst ps)). intros m A X1 M B X2. pose proof (round2_bound m). pose proof (round2_bound M). lra. }
  assert (H : 0 < round2 (q_max (map snd ps)) - round2 (q_min (map snd ps))).
  { pose proof (C _ (in_map snd _ _ Ic)) as X1. pose proof (D _ (in_map snd _ _ Id)) as X2. generalize dependent (q_max (map snd ps)). generalize dependent (q_min (map snd ps)). intros m C X1 M D X2. pose proof (round2_bound m). pose proof (round2_bound M). lra. }
  unfold area, rwidth, rheight. cbn [rx0 rx1 ry0 ry1]. set (w := round2 (q_max (map fst ps)) - round2 (q_min (map fst ps))) in *. set (h := round2 (q_max (map snd ps)) - round2 (q_min (map snd ps))) in *.
  assert (P : 0 < w * h) by (apply Qmult_lt_0_compat; assumption). apply Bool.orb_false_iff. split.
  - destruct (qeq (w * h) 0) eqn:Eq; [|reflexivity]. apply qeq_iff in Eq. lra.
  - destruct (qle_spec ISO_FACTOR (0 / (w * h))) as [L|L]; [|reflexivity]. exfalso. unfold ISO_FACTOR in L. assert (Z : 0 / (w * h) == 0) by (field; split; lra). rewrite Z in L. lra.
Qed.

(** * Box of a path *)
Definition wide_box (w : Q) (b : rect) : rect := if qeq (area b) 0 then rplus b (- w) (- w) w w else b.
Lemma wide_proper w b : 0 < w -> valid b -> proper (wide_box w b) /\ Rect.covers (wide_box w b) b.
Proof.
  intros Hw [V1 V2]. unfold wide_box. destruct (qeq_spec (area b) 0) as [E|E].
  - unfold proper, Rect.covers, rplus. cbn. repeat split; lra.
  - unfold area, rwidth, rheight in E. split; [|unfold Rect.covers; repeat split; lra].
    split.
    + destruct (Qlt_le_dec (rx0 b) (rx1 b)) as [L|L]; [exact L|]. exfalso. apply E. assert (X : rx1 b - rx0 b == 0) by lra. rewrite X. ring.
    + destruct (Qlt_le_dec (ry0 b) (ry1 b)) as [L|L]; [exact L|]. exfalso. apply E. assert (X : ry1 b - ry0 b == 0) by lra. rewrite X. ring.
Qed.
(** Least box covering all of a list. *)
Definition hull (u : rect) (l : list rect) : Prop :=
  (forall b, In b l -> Rect.covers u b) /\
  (exists b, In b l /\ rx0 b == rx0 u) /\ (exists b, In b l /\ ry0 b == ry0 u) /\ (exists b, In b l /\ rx1 b == rx1 u) /\ (exists b, In b l /\ ry1 b == ry1 u).
Lemma hull_step u l b : proper u -> proper b -> hull u l -> hull (runion u b) (l ++ [b]) /\ proper (runion u b).
Proof.
  intros Pu Pb (C & (b1 & I1 & E1) & (b2 & I2 & E2) & (b3 & I3 & E3) & (b4 & I4 & E4)).
  destruct (runion_covers u b Pu Pb) as (C1 & C2 & Pr & _). split; [|exact Pr].
  unfold runion in *. rewrite (proper_nonempty _ Pu), (proper_nonempty _ Pb) in *. cbn [rx0 ry0 rx1 ry1] in *.
  split.
  { intros x I. apply in_app_or in I. destruct I as [I|[<-|[]]]; [|exact C2]. specialize (C x I). unfold Rect.covers in *. cbn in *. repeat split; lra. }
  assert (K : forall x, In x l -> In x (l ++ [b])) by (intros; apply in_or_app; left; assumption).
  assert (Kb : In b (l ++ [b])) by (apply in_or_app; right; left; reflexivity).
  repeat split.
  - unfold qmin. destruct (qlt (rx0 b) (rx0 u)); [exists b; split; [exact Kb|reflexivity]|exists b1; split; [apply K; exact I1|exact E1]].
  - unfold qmin. destruct (qlt (ry0 b) (ry0 u)); [exists b; split; [exact Kb|reflexivity]|exists b2; split; [apply K; exact I2|exact E2]].
  - unfold qmax. destruct (qlt (rx1 u) (rx1 b)); [exists b; split; [exact Kb|reflexivity]|exists b3; split; [apply K; exact I3|exact E3]].
  - unfold qmax. destruct (qlt (ry1 u) (ry1 b)); [exists b; split; [exact Kb|reflexivity]|exists b4; split; [apply K; exact I4|exact E4]].
Qed.
Lemma hull_fold : forall l done u, proper u -> hull u done -> (forall b, In b l -> proper b) -> hull (fold_left runion l u) (done ++ l) /\ proper (fold_left runion l u).
Proof.
  induction l as [|b t IH]; intros done u Pu H Hl; cbn [fold_left]; [rewrite app_nil_r; auto|].
  destruct (hull_step u done b Pu (Hl b (or_introl eq_refl)) H) as [H1 P1].
  replace (done ++ b :: t) with ((done ++ [b]) ++ t) by (rewrite <- app_assoc; reflexivity). apply IH; try assumption. intros. apply Hl. right. assumption.
Qed.
Lemma hull_boxes l : l <> [] -> (forall b, In b l -> proper b) -> hull (fold_left runion l rect0) l /\ proper (fold_left runion l rect0).
Proof.
  destruct l as [|b t]; [congruence|]. intros _ Hl. cbn [fold_left].
  assert (E : runion rect0 b = b) by (unfold runion; rewrite (proper_nonempty b) by (apply Hl; left; reflexivity); reflexivity).
  rewrite E. change (b :: t) with ([b] ++ t). apply hull_fold; [apply Hl; left; reflexivity| |intros; apply Hl; right; assumption].
  split; [intros x [<-|[]]; unfold Rect.covers; repeat split; lra|]. repeat split; exists b; split; try (left; reflexivity); reflexivity.
Qed.
Lemma path_bbox_fold p : path_bbox p = fold_left runion (map (fun segs => wide_box (pt_width p) (fst (bbox_area segs))) (path_segments p)) rect0.
Proof. unfold path_bbox. generalize rect0. induction (path_segments p) as [|s t IH]; intros r; cbn [map fold_left]; [reflexivity|]. apply IH. Qed.
(** A path is kept exactly if some point lies strictly inside both its box and the page. *)
Lemma overlap_point a b : rect_intersects a b = true <-> exists x y, rx0 a < x < rx1 a /\ ry0 a < y < ry1 a /\ rx0 b < x < rx1 b /\ ry0 b < y < ry1 b.
Proof.
  unfold rect_intersects. rewrite !andb_true_iff, !qlt_iff. split.
  - intros (((_ & _) & Hx) & Hy).
    exists ((1 # 2) * (qmax (rx0 a) (rx0 b) + qmin (rx1 a) (rx1 b))), ((1 # 2) * (qmax (ry0 a) (ry0 b) + qmin (ry1 a) (ry1 b))).
    unfold qmax, qmin in *. qcases; repeat split; lra.
  - intros (x & y & (X1 & X2) & (Y1 & Y2) & (X3 & X4) & (Y3 & Y4)).
    assert (Ea : rect_empty a = false) by (unfold rect_empty; qcases; cbn; try reflexivity; exfalso; lra).
    assert (Eb : rect_empty b = false) by (unfold rect_empty; qcases; cbn; try reflexivity; exfalso; lra).
    rewrite Ea, Eb. cbn. split; [split; [split; reflexivity|]|]; unfold qmax, qmin; qcases; lra.
Qed.
Lemma min_le_max l : q_min l <= q_max l.
Proof.
  destruct l as [|x t]; [apply Qle_refl|]. destruct (q_min_spec (x :: t)) as [_ H1]; [discriminate|]. destruct (q_max_spec (x :: t)) as [_ H2]; [discriminate|].
  eapply Qle_trans; [apply H1|apply H2]; left; reflexivity.
Qed.
Lemma pts_box_valid ps : valid (mkRect (round2 (q_min (map fst ps))) (round2 (q_min (map snd ps))) (round2 (q_max (map fst ps))) (round2 (q_max (map snd ps)))).
Proof. unfold valid, round2. cbn [rx0 ry0 rx1 ry1]. split; apply round_p_mono; apply min_le_max. Qed.
Lemma segs_box_valid close g : good_group g -> (forall r, In (IRect r) g -> valid r) -> valid (fst (bbox_area (segments close g))).
Proof.
  intros G V. destruct G as [(r & ->)|(N & L & _)].
  - assert (E : segments close [IRect r] = [SRect r]) by (unfold segments, closing; cbn; rewrite andb_false_r; reflexivity). rewrite E. apply V. left. reflexivity.
  - assert (X : forall r, segments close g <> [SRect r]).
    { intros r E. destruct g as [|a t]; [congruence|]. specialize (L a (or_introl eq_refl)). unfold segments in E. destruct a; try destruct L; cbn in E; discriminate. }
    destruct (segments close g) as [|[p q|ps|r] [|s' t']]; try (apply pts_box_valid). exfalso. apply (X r). reflexivity.
Qed.
