(** Properties C38 and C57: vector paths. *)
From Verif Require Import GeomModel GeomSpec GeomProof GraphModel GraphProof InterModel InterProof InterProps ShapeModel PathModel PathSpec PathProof.
From Coq Require Import Lia Permutation Lqa.
Open Scope Q_scope.

(* ------------------------------------------------------------------ *)
(** * C38: splitting a path *)
(** Every item (of a known kind) is in exactly one group, in drawing order; a group is one
    rectangle or a connected run of lines and curves; neighbouring groups are not
    connected. *)
Theorem C38_groups items : concat (group_segments items) = filter drawable items /\ (forall g, In g (group_segments items) -> good_group g) /\ chained apart (group_segments items).
Proof. split; [apply (group_concat items [] (0, 0))|]. apply group_ok. left. reflexivity. Qed.
Print Assumptions C38_groups.
(** Without closing, the strokes of a path are exactly the edges of its items. *)
Theorem C38_strokes_open p c : pt_color p = Some c -> pt_close p = false -> lines_of_path p = flat_map (edges (pt_width p)) (pt_items p).
Proof.
  intros E1 E2. rewrite lines_eq, E1, E2. transitivity (flat_map (edges (pt_width p)) (filter drawable (pt_items p))).
  - rewrite <- (proj1 (C38_groups (pt_items p))), flat_map_concat'. induction (group_segments (pt_items p)) as [|g gs IH]; [reflexivity|]. cbn [flat_map]. rewrite IH. unfold closing. cbn [andb flat_map]. rewrite app_nil_r. reflexivity.
  - induction (pt_items p) as [|i l IH]; [reflexivity|]. cbn [filter flat_map]. destruct i; cbn [drawable flat_map edges]; rewrite IH; reflexivity.
Qed.
Print Assumptions C38_strokes_open.
(** With closing, each group of two or more items gets one more line, from its end to its
    start. *)
Theorem C38_strokes_closed p c : pt_color p = Some c -> pt_close p = true ->
  exists extra, length extra = length (group_segments (pt_items p)) /\
    (forall k g l, nth_error (group_segments (pt_items p)) k = Some g -> nth_error extra k = Some l -> closing_line (pt_width p) g l) /\
    lines_of_path p = flat_map (fun ge => flat_map (edges (pt_width p)) (fst ge) ++ snd ge) (combine (group_segments (pt_items p)) extra).
Proof.
  intros E1 E2. rewrite lines_eq, E1, E2. destruct (C38_groups (pt_items p)) as (_ & G & _). set (gs := group_segments (pt_items p)) in *.
  exists (map (fun g => flat_map (seg_strokes (pt_width p)) (closing true g)) gs). split; [apply map_length|]. split.
  - intros k g l Hg Hl. rewrite nth_error_map, Hg in Hl. injection Hl as <-. apply closing_ok, G. eapply nth_error_In. exact Hg.
  - clear G. induction gs as [|g gs IH]; [reflexivity|]. cbn [map combine flat_map fst snd]. rewrite IH. reflexivity.
Qed.
Print Assumptions C38_strokes_closed.
(** No colour, no strokes; no fill colour, no fills. *)
Theorem C38_uncoloured p : (pt_color p = None -> lines_of_path p = []) /\ (pt_fill p = None -> fills_of_path p = []) /\
  (forall c, pt_fill p = Some c -> length (fills_of_path p) = length (group_segments (pt_items p))).
Proof. rewrite lines_eq, fills_eq. split; [intros ->; reflexivity|]. split; [intros ->; reflexivity|]. intros c ->. unfold path_segments. rewrite !map_length. reflexivity. Qed.
Print Assumptions C38_uncoloured.
(** The fill of a group is the box of its points (with control points), within half of the
    second decimal. *)
Theorem C38_fill_box p c k g b : pt_fill p = Some c -> nth_error (group_segments (pt_items p)) k = Some g -> nth_error (fills_of_path p) k = Some b -> (forall r, In (IRect r) g -> valid r) ->
  (forall i q, In i g -> In q (points_of i) -> rx0 b - (1 # 200) <= fst q <= rx1 b + (1 # 200) /\ ry0 b - (1 # 200) <= snd q <= ry1 b + (1 # 200)) /\
  (exists i q, In i g /\ In q (points_of i) /\ Qabs (rx0 b - fst q) <= 1 # 200) /\ (exists i q, In i g /\ In q (points_of i) /\ Qabs (rx1 b - fst q) <= 1 # 200) /\
  (exists i q, In i g /\ In q (points_of i) /\ Qabs (ry0 b - snd q) <= 1 # 200) /\ (exists i q, In i g /\ In q (points_of i) /\ Qabs (ry1 b - snd q) <= 1 # 200).
Proof.
  intros Ef Hg Hb V. rewrite fills_eq, Ef in Hb. unfold path_segments in Hb. rewrite !nth_error_map, Hg in Hb. cbn [option_map] in Hb. injection Hb as <-.
  apply (group_box g (pt_close p)); [|exact V]. apply (proj1 (proj2 (C38_groups (pt_items p)))). eapply nth_error_In. exact Hg.
Qed.
Print Assumptions C38_fill_box.
(** Rectangles and unconnected horizontal or vertical lines are kept for tables ... *)
Theorem C38_iso_single p : (forall i, In i (pt_items p) -> axis_parallel i) -> (forall g, In g (group_segments (pt_items p)) -> length g = 1%nat) -> path_iso p = true.
Proof.
  intros A L. unfold path_iso, path_segments. apply forallb_forall. intros s Hs. apply in_map_iff in Hs. destruct Hs as (g & <- & Hg). specialize (L g Hg). destruct g as [|i [|]]; try discriminate L.
  assert (Hi : In i (filter drawable (pt_items p))) by (rewrite <- (proj1 (C38_groups (pt_items p))); apply in_concat; exists [i]; split; [exact Hg|left; reflexivity]).
  apply filter_In in Hi. apply single_iso; [apply A; tauto|tauto].
Qed.
Print Assumptions C38_iso_single.
(** ... and so are rectangles drawn with three lines and closed, or with four. *)
Theorem C38_iso_rectangle x0 y0 x1 y1 w color fill : 1 # 5 <= x1 - x0 -> 1 # 5 <= y1 - y0 ->
  let a := (x0, y0) in let b := (x1, y0) in let c := (x1, y1) in let d := (x0, y1) in
  path_iso (mkPath [ILine a b; ILine b c; ILine c d] true w color fill) = true /\
  forall close, path_iso (mkPath [ILine a b; ILine b c; ILine c d; ILine d a] close w color fill) = true.
Proof.
  intros W H. cbv zeta. unfold path_iso, path_segments. cbn [pt_items pt_close]. unfold group_segments. cbn [group_loop]. repeat (rewrite point_eqb_self; cbn [app group_loop]). cbn [close_current map forallb]. split.
  - rewrite three_iso by assumption. reflexivity.
  - intros close. rewrite four_iso by assumption. reflexivity.
Qed.
Print Assumptions C38_iso_rectangle.
(** A slanted line is not; neither are two perpendicular lines drawn as one open path: such
    borders are lost. *)
Theorem C38_slanted p q w color fill close : 1 # 50 <= fst q - fst p -> 1 # 50 <= Qabs (snd q - snd p) -> path_iso (mkPath [ILine p q] close w color fill) = false.
Proof.
  intros Hx Hy. unfold path_iso, path_segments. cbn [pt_items pt_close]. unfold group_segments. cbn [group_loop close_current map forallb].
  assert (E : segments close [ILine p q] = [SLine p q]) by (unfold segments, closing; cbn [flat_map length Nat.leb seg_of app]; rewrite andb_false_r; reflexivity). rewrite E.
  rewrite (open_not_iso [SLine p q] [p; q]); [reflexivity|reflexivity|discriminate|..].
  - unfold closed_curve. cbn [last]. destruct (qlt_spec (qabs (fst p - fst q) + qabs (snd p - snd q)) (1 # 1000)) as [L|L]; [|reflexivity]. exfalso.
    assert (A : 1 # 50 <= qabs (fst p - fst q)) by (unfold qabs; destruct (qlt_spec (fst p - fst q) 0); lra). assert (B : 0 <= qabs (snd p - snd q)) by (unfold qabs; destruct (qlt_spec (snd p - snd q) 0); lra). lra.
  - exists p, q. cbn; auto.
  - destruct (Qlt_le_dec (snd q - snd p) 0) as [L|L]; [rewrite Qabs_neg in Hy by lra; exists q, p|rewrite Qabs_pos in Hy by exact L; exists p, q]; cbn [In]; (split; [auto|split; [auto|lra]]).
Qed.
Print Assumptions C38_slanted.
Theorem C38_open_corner_refuted x0 y0 x1 y1 w color fill : 1 # 50 <= x1 - x0 -> 1 # 50 <= y1 - y0 ->
  let p := mkPath [ILine (x0, y0) (x1, y0); ILine (x1, y0) (x1, y1)] false w color fill in
  (forall i, In i (pt_items p) -> axis_parallel i) /\ path_iso p = false.
Proof.
  intros W H p. split; [intros i [<-|[<-|[]]]; cbn; [right|left]; reflexivity|].
  unfold p, path_iso, path_segments. cbn [pt_items pt_close]. unfold group_segments. cbn [group_loop]. rewrite point_eqb_self. cbn [app group_loop close_current map forallb].
  rewrite (open_not_iso _ [(x0, y0); (x1, y0); (x1, y0); (x1, y1)]); [reflexivity|reflexivity|discriminate|..].
  - unfold closed_curve. cbn [last fst snd]. destruct (qlt_spec (qabs (x0 - x1) + qabs (y0 - y1)) (1 # 1000)) as [L|L]; [|reflexivity]. exfalso.
    assert (A : 1 # 50 <= qabs (x0 - x1)) by (unfold qabs; destruct (qlt_spec (x0 - x1) 0); lra). assert (B : 0 <= qabs (y0 - y1)) by (unfold qabs; destruct (qlt_spec (y0 - y1) 0); lra). lra.
  - exists (x0, y0), (x1, y0). split; [left; reflexivity|]. split; [right; left; reflexivity|exact W].
  - exists (x0, y0), (x1, y1). split; [left; reflexivity|]. split; [right; right; right; left; reflexivity|exact H].
Qed.
Print Assumptions C38_open_corner_refuted.
(** A line of width zero (the thinnest line in PDF) is dropped. *)
Theorem C38_hairline_refuted x0 x1 y pw ph color : x0 < x1 -> paths_restore pw ph [mkPath [ILine (x0, y) (x1, y)] false 0 color None] = [].
Proof.
  intros H. unfold paths_restore. cbn [filter].
  assert (E : rect_empty (path_bbox (mkPath [ILine (x0, y) (x1, y)] false 0 color None)) = true).
  { unfold path_bbox, path_segments. cbn [pt_items pt_close pt_width group_segments group_loop close_current map fold_left]. unfold segments, closing. cbn [andb flat_map seg_of app]. cbn [bbox_area fst flat_map seg_points app map q_min q_max fold_left snd].
    assert (Z : qmin y y = y /\ qmax y y = y) by (unfold qmin, qmax; destruct (qlt y y); auto). destruct Z as (-> & ->).
    rewrite (area_zero_h (mkRect _ (round2 y) _ (round2 y))) by reflexivity. unfold rplus. cbn [rx0 rx1 ry0 ry1].
    match goal with |- rect_empty (runion rect0 ?r) = true => assert (Er : rect_empty r = true) by (unfold rect_empty; cbn [rx0 rx1 ry0 ry1]; apply Bool.orb_true_iff; right; apply qeq_iff; lra) end.
    unfold runion. rewrite Er. reflexivity. }
  unfold rect_intersects. rewrite E. reflexivity.
Qed.
Print Assumptions C38_hairline_refuted.
(** Non-vacuity: two groups, a curve, a rectangle. *)
Definition ex_items : list ditem := [ILine (0, 0) (10, 0); ICurve (10, 0) (12, 1) (13, 3) (10, 8); IRect (mkRect 50 50 60 70); ILine (20, 20) (30, 20)].
Example ex_items_groups : group_segments ex_items = [[ILine (0, 0) (10, 0); ICurve (10, 0) (12, 1) (13, 3) (10, 8)]; [IRect (mkRect 50 50 60 70)]; [ILine (20, 20) (30, 20)]].
Proof. reflexivity. Qed.
Example ex_single : let p := mkPath [IRect (mkRect 50 50 60 70); ILine (20, 20) (30, 20); ILine (20, 40) (20, 90)] true 1 (Some 0%Z) None in
  (forall i, In i (pt_items p) -> axis_parallel i) /\ (forall g, In g (group_segments (pt_items p)) -> length g = 1%nat).
Proof.
  cbv zeta. split; [intros i [<-|[<-|[<-|[]]]]; cbn; [exact I|right; reflexivity|left; reflexivity]|]. intros g Hg. vm_compute in Hg. repeat (destruct Hg as [<-|Hg]; [reflexivity|]). destruct Hg.
Qed.

(* ------------------------------------------------------------------ *)
(** * C57: table lines and vector graphics *)
(** Share of paths of a group that are not axis-parallel. *)
Definition curved (p : path) : bool := negb (path_iso p).
Definition graphic (ratio : Q) (g : list path) : Prop := ratio * inject_Z (Z.of_nat (length g)) < inject_Z (Z.of_nat (length (filter curved g))).
Lemma contains_curve_spec ratio g : contains_curve ratio g = true <-> graphic ratio g.
Proof.
  unfold contains_curve, graphic. change (fun p => negb (path_iso p)) with curved. destruct g as [|a g'].
  - cbn [filter length Z.of_nat]. split; [discriminate|]. intros H. exfalso. change (inject_Z 0) with 0 in H. lra.
  - set (g := a :: g') in *. assert (P : 0 < inject_Z (Z.of_nat (length g))) by (change 0 with (inject_Z 0); rewrite <- Zlt_Qlt; unfold g; cbn [length]; lia).
    set (n := inject_Z (Z.of_nat (length g))) in *. set (k := inject_Z (Z.of_nat (length (filter curved g)))) in *. destruct (qlt_spec ratio (k / n)) as [L|L].
    + split; [intros _|reflexivity]. assert (E : k == k / n * n) by (field; lra). rewrite E. apply Qmult_lt_compat_r; assumption.
    + split; [discriminate|]. intros G. exfalso. apply L. apply Qlt_shift_div_l; assumption.
Qed.
Lemma paths_shapes_spec ratio gs : let '(s, a, svg) := paths_shapes ratio gs in
  s = flat_map iso_paths (filter (fun g => negb (contains_curve ratio g)) gs) /\ a = flat_map (map path_bbox) (filter (fun g => negb (contains_curve ratio g)) gs) /\ svg = existsb (contains_curve ratio) gs.
Proof.
  induction gs as [|g gs IH]; [repeat split|]. cbn [paths_shapes]. destruct (paths_shapes ratio gs) as [[s a] svg]. destruct IH as (-> & -> & ->). cbn [filter existsb]. destruct (contains_curve ratio g); cbn [negb flat_map orb]; auto.
Qed.
(** The paths are split into groups; the shapes handed on are those of the axis-parallel
    paths of the groups that are no graphics, the areas those of all paths of these groups,
    and graphics are reported exactly if a group has more than the given share of other
    paths. *)
Theorem C57_split order ratio l : (forall x, Permutation x (order x)) -> (forall p, In p l -> proper (path_bbox p)) ->
  exists gs s a svg, paths_to_shapes order ratio l = Some (s, a, svg) /\ Permutation (concat gs) l /\
    (svg = true <-> exists g, In g gs /\ graphic ratio g) /\
    (forall x, In x s <-> exists g p, In g gs /\ ~ graphic ratio g /\ In p g /\ path_iso p = true /\ In x (path_shapes p)) /\
    (forall b, In b a <-> exists g p, In g gs /\ ~ graphic ratio g /\ In p g /\ b = path_bbox p) /\
    ((forall g, In g gs -> ~ graphic ratio g) -> Permutation s (flat_map path_shapes (filter path_iso l)) /\ Permutation a (map path_bbox l)).
Proof.
  intros Ho Hp. destruct (C16_groups_sound order (1 # 10) (1 # 10) (map path_bbox l) Ho) as (gi & E & N & C & _); [vm_compute; discriminate|vm_compute; discriminate|intros r Hr; apply in_map_iff in Hr; destruct Hr as (p & <- & Hr); apply Hp; exact Hr|].
  set (gs := map (flat_map (item_at l)) gi). exists gs. unfold paths_to_shapes. rewrite E. cbn [option_map]. fold gs. pose proof (paths_shapes_spec ratio gs) as S. destruct (paths_shapes ratio gs) as [[s a] svg]. destruct S as (Es & Ea & Ev).
  exists s, a, svg. split; [reflexivity|].
  assert (Pm : Permutation (concat gs) l).
  { assert (Eq : concat gs = flat_map (item_at l) (concat gi)) by (unfold gs; clear; induction gi as [|x t IH]; cbn; [reflexivity|]; rewrite flat_map_app, IH; reflexivity).
    rewrite Eq. apply select_perm. apply NoDup_Permutation; [exact N|apply seq_NoDup|]. intros x. rewrite <- C, in_seq, map_length. lia. }
  assert (K : forall g, In g (filter (fun g => negb (contains_curve ratio g)) gs) <-> In g gs /\ ~ graphic ratio g).
  { intros g. rewrite filter_In, Bool.negb_true_iff. pose proof (contains_curve_spec ratio g) as Sp. destruct (contains_curve ratio g); intuition congruence. }
  split; [exact Pm|]. split; [|split; [|split]].
  - rewrite Ev, existsb_exists. split; intros (g & Hg & H); exists g; (split; [exact Hg|]); apply contains_curve_spec; exact H.
  - intros x. rewrite Es, in_flat_map. split.
    + intros (g & Hg & H). apply K in Hg. unfold iso_paths in H. apply in_flat_map in H. destruct H as (p & H1 & H2). apply filter_In in H1. exists g, p. tauto.
    + intros (g & p & Hg & Ng & Ip & Iso & H). exists g. split; [apply K; auto|]. unfold iso_paths. apply in_flat_map. exists p. split; [apply filter_In; auto|exact H].
  - intros b. rewrite Ea, in_flat_map. split.
    + intros (g & Hg & H). apply K in Hg. apply in_map_iff in H. destruct H as (p & <- & H). exists g, p. tauto.
    + intros (g & p & Hg & Ng & Ip & ->). exists g. split; [apply K; auto|]. apply in_map. exact Ip.
  - intros Ng. assert (All : filter (fun g => negb (contains_curve ratio g)) gs = gs).
    { clear - Ng. induction gs as [|g gs IH]; [reflexivity|]. cbn [filter]. destruct (contains_curve ratio g) eqn:X; [exfalso; apply (Ng g (or_introl eq_refl)), contains_curve_spec, X|]. cbn [negb]. f_equal. apply IH. intros g' Hg'. apply Ng. right. exact Hg'. }
    rewrite Es, Ea, All. split.
    + assert (X : flat_map iso_paths gs = flat_map path_shapes (filter path_iso (concat gs))).
      { clear. induction gs as [|g gs IH]; [reflexivity|]. cbn [flat_map concat]. rewrite filter_app, flat_map_app, IH. reflexivity. }
      rewrite X. apply Permutation_flat_map. clear - Pm. induction Pm; cbn [filter]; [constructor|destruct (path_iso x); [constructor|]; assumption|destruct (path_iso x), (path_iso y); try constructor; try apply Permutation_refl|eapply Permutation_trans; eassumption].
    + assert (X : flat_map (map path_bbox) gs = map path_bbox (concat gs)) by (clear; induction gs as [|g gs IH]; [reflexivity|cbn [flat_map concat]; rewrite map_app, IH; reflexivity]). rewrite X. apply Permutation_map. exact Pm.
Qed.
Print Assumptions C57_split.
(** If all paths are axis-parallel, all their shapes are handed on, and no graphics. *)
Theorem C57_all_iso order ratio l : (forall x, Permutation x (order x)) -> 0 <= ratio -> (forall p, In p l -> proper (path_bbox p) /\ path_iso p = true) ->
  exists s a, paths_to_shapes order ratio l = Some (s, a, false) /\ Permutation s (flat_map path_shapes l) /\ Permutation a (map path_bbox l).
Proof.
  intros Ho Hr H. destruct (C57_split order ratio l Ho) as (gs & s & a & svg & E & Pm & Sv & _ & _ & All); [intros p Hp; apply H; exact Hp|].
  assert (Ng : forall g, In g gs -> ~ graphic ratio g).
  { intros g Hg G. unfold graphic in G. assert (F : filter curved g = []).
    { assert (Hin : forall p, In p g -> path_iso p = true) by (intros p Hp; apply H; eapply Permutation_in; [exact Pm|]; apply in_concat; exists g; auto). clear - Hin. induction g as [|p g IH]; [reflexivity|]. cbn [filter]. unfold curved at 1. rewrite (Hin p (or_introl eq_refl)). apply IH. intros q Hq. apply Hin. right. exact Hq. }
    rewrite F in G. cbn [length Z.of_nat] in G. change (inject_Z 0) with 0 in G. assert (0 <= inject_Z (Z.of_nat (length g))) by (change 0 with (inject_Z 0); rewrite <- Zle_Qle; lia). nra. }
  destruct (All Ng) as (P1 & P2). exists s, a. assert (svg = false) by (destruct svg; [|reflexivity]; exfalso; destruct (proj1 Sv eq_refl) as (g & Hg & G); exact (Ng g Hg G)). subst svg. split; [exact E|]. split; [|exact P2].
  assert (X : filter path_iso l = l) by (clear - H; induction l as [|p l IH]; [reflexivity|]; cbn [filter]; rewrite (proj2 (H p (or_introl eq_refl))); f_equal; apply IH; intros q Hq; apply H; right; exact Hq). rewrite X in P1. exact P1.
Qed.
Print Assumptions C57_all_iso.
(** A slanted line in a group of mostly axis-parallel lines is neither kept as a shape nor
    drawn as a graphic: here one among five rectangles. *)
Definition slanted_mix : list path := mkPath [ILine (0, 0) (10, 8)] false 1 (Some 7%Z) None :: map (fun k => mkPath [IRect (mkRect k 0 (k + 1) 8)] false 1 (Some 0%Z) None) [0; 1; 2; 3; 4; 5].
Theorem C57_slanted_lost_refuted : exists s a, paths_to_shapes (fun x => x) (1 # 5) slanted_mix = Some (s, a, false) /\ (forall x, In x s -> match x with RLine _ c => c = 0%Z | RFill _ _ => False end).
Proof.
  do 2 eexists. split; [vm_compute; reflexivity|]. intros x Hx. repeat (destruct Hx as [<-|Hx]; [reflexivity|]). destruct Hx.
Qed.
Print Assumptions C57_slanted_lost_refuted.
Example ex_mix_proper p : In p slanted_mix -> proper (path_bbox p).
Proof. intros H. repeat (destruct H as [<-|H]; [split; vm_compute; reflexivity|]). destruct H. Qed.
Example ex_iso_proper p : In p (tl slanted_mix) -> proper (path_bbox p) /\ path_iso p = true.
Proof. intros H. repeat (destruct H as [<-|H]; [split; [split; vm_compute; reflexivity|vm_compute; reflexivity]|]). destruct H. Qed.

(** C38: the box of a path of positive line width is the least box covering the boxes of its
    groups, each widened by the line width on every side if it has no area. *)
Theorem C38_path_box p : 0 < pt_width p -> path_segments p <> [] -> (forall r, In (IRect r) (pt_items p) -> valid r) ->
  let boxes := map (fun segs => let b := fst (bbox_area segs) in if Qeq_bool (rwidth b * rheight b) 0
                      then mkRect (rx0 b - pt_width p) (ry0 b - pt_width p) (rx1 b + pt_width p) (ry1 b + pt_width p) else b) (path_segments p) in
  let u := path_bbox p in
  (forall b, In b boxes -> rx0 u <= rx0 b /\ ry0 u <= ry0 b /\ rx1 b <= rx1 u /\ ry1 b <= ry1 u) /\
  (exists b, In b boxes /\ rx0 b == rx0 u) /\ (exists b, In b boxes /\ ry0 b == ry0 u) /\
  (exists b, In b boxes /\ rx1 b == rx1 u) /\ (exists b, In b boxes /\ ry1 b == ry1 u).
Proof.
  intros Hw Hn Hr boxes u. unfold u. rewrite path_bbox_fold.
  assert (E : map (fun segs => wide_box (pt_width p) (fst (bbox_area segs))) (path_segments p) = boxes) by reflexivity.
  rewrite E. apply hull_boxes.
  - intros X. apply Hn. unfold boxes in X. destruct (path_segments p); [reflexivity|discriminate].
  - rewrite <- E. intros b I. apply in_map_iff in I. destruct I as (segs & <- & I). apply wide_proper; [exact Hw|].
    unfold path_segments in I. apply in_map_iff in I. destruct I as (g & <- & I).
    assert (G : good_group g) by (apply (proj1 (group_ok (pt_items p) [] (0, 0) (or_introl eq_refl))); exact I).
    apply segs_box_valid; [exact G|]. intros r Ir. apply Hr.
    assert (In (IRect r) (concat (group_segments (pt_items p)))) by (apply in_concat; exists g; split; assumption).
    unfold group_segments in H. rewrite group_concat in H. cbn [app] in H. apply filter_In in H. apply H.
Qed.
Print Assumptions C38_path_box.
(** C38: exactly the paths with a point strictly inside their box and the page are kept, in order. *)
Theorem C38_on_page w h l : paths_restore w h l = filter (fun p => rect_intersects (path_bbox p) (mkRect 0 0 w h)) l /\
  (forall p, In p (paths_restore w h l) <-> In p l /\ exists x y, 0 < x < w /\ 0 < y < h /\ rx0 (path_bbox p) < x < rx1 (path_bbox p) /\ ry0 (path_bbox p) < y < ry1 (path_bbox p)).
Proof.
  split; [reflexivity|]. intros p. unfold paths_restore. rewrite filter_In, overlap_point. cbn [rx0 ry0 rx1 ry1].
  split; intros (I & x & y & H); (split; [exact I|]; exists x, y; tauto).
Qed.
Print Assumptions C38_on_page.
Example C38_on_page_nonvacuous : paths_restore 100 200 [mkPath [ILine (10, 150) (90, 150)] false 1 (Some 0%Z) None; mkPath [ILine (150, 10) (190, 10)] false 1 (Some 0%Z) None; mkPath [ILine (10, 250) (90, 250)] false 1 (Some 0%Z) None] =
  [mkPath [ILine (10, 150) (90, 150)] false 1 (Some 0%Z) None].
Proof. vm_compute. reflexivity. Qed.
