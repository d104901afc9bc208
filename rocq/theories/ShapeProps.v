(** C37 (strokes), C39 (clean up), C40 (classification), C48 (distribution over tables). *)
From Verif Require Import GeomModel GeomSpec GeomProof ShapeModel ShapeSpec ShapeProof.
From Coq Require Import Lia Permutation.
Open Scope Q_scope.

(* ------------------------------------------------------------------ *)
(** * C37 *)
(** A stroke drawn along an axis starts at its left/top end, whatever its direction. *)
Theorem C37_normalised ax ay bx by_ w c t : ax == bx \/ ay == by_ ->
  let s := new_stroke ax ay bx by_ w c t in
  sh_x0 s == qmin ax bx /\ sh_y0 s == qmin ay by_ /\ sh_x1 s == qmax ax bx /\ sh_y1 s == qmax ay by_.
Proof. apply stroke_axis. Qed.
Print Assumptions C37_normalised.
(** Drawing it the other way round gives the same stroke. *)
Theorem C37_direction_irrelevant ax ay bx by_ w c t : ax == bx \/ ay == by_ ->
  same_shape (new_stroke ax ay bx by_ w c t) (new_stroke bx by_ ax ay w c t).
Proof. apply stroke_direction. Qed.
Print Assumptions C37_direction_irrelevant.
(** Its box is the segment thickened by half its width (on all four sides), rounded to
    0.1pt. *)
Theorem C37_box ax ay bx by_ w c t : ax == bx \/ ay == by_ ->
  req (sh_bbox (new_stroke ax ay bx by_ w c t))
      (rround (mkRect (qmin ax bx - w / 2) (qmin ay by_ - w / 2) (qmax ax bx + w / 2) (qmax ay by_ + w / 2))).
Proof.
  intros H. destruct (stroke_axis ax ay bx by_ w c t H) as (A & B & C & D).
  destruct (new_stroke_fields ax ay bx by_ w c t) as (_ & _ & _ & _ & _ & E). cbv zeta in *. rewrite E. apply rround_req.
  unfold req, stroke_rect. cbn. rewrite A, B, C, D. repeat split; reflexivity.
Qed.
Print Assumptions C37_box.
(** Storing and restoring an axis-parallel stroke gives the same stroke; a fill or a
    hyperlink keeps box, colour, type and uri. *)
Theorem C37_store_restore_stroke ax ay bx by_ w c t : ax == bx \/ ay == by_ ->
  let s := new_stroke ax ay bx by_ w c t in restore_shape (store_shape s) = s.
Proof.
  intros H. cbv zeta. destruct (stroke_axis ax ay bx by_ w c t H) as (A & B & C & D).
  destruct (new_stroke_fields ax ay bx by_ w c t) as (K & _ & _ & W & U & E). cbv zeta in *.
  apply stroke_roundtrip; try assumption; [| |rewrite W; exact E].
  - rewrite A, C. eapply Qle_trans; [apply qmin_l|apply qmax_l].
  - rewrite B, D. eapply Qle_trans; [apply qmin_l|apply qmax_l].
Qed.
Print Assumptions C37_store_restore_stroke.
Theorem C37_store_restore_fill s : sh_kind s <> KStroke -> rect_decimal (sh_bbox s) ->
  let s' := restore_shape (store_shape s) in
  sh_kind s' = sh_kind s /\ req (sh_bbox s') (sh_bbox s) /\ sh_color s' = sh_color s /\ sh_type s' = sh_type s /\
  (sh_kind s = KLink -> sh_uri s' = sh_uri s).
Proof. apply fill_roundtrip. Qed.
Print Assumptions C37_store_restore_fill.
(** A thin fill converts to the stroke with the same box and colour whose width is the
    smaller side and whose centre line lies inside; a fill thicker than the maximum in
    both directions does not convert. *)
Theorem C37_fill_to_stroke s m : normal_box (sh_bbox s) -> sh_kind s = KFill ->
  match to_stroke s m with
  | None => m < rwidth (sh_bbox s) /\ m < rheight (sh_bbox s)
  | Some u => (rwidth (sh_bbox s) <= m \/ rheight (sh_bbox s) <= m) /\
              sh_kind u = KStroke /\ req (sh_bbox u) (sh_bbox s) /\ sh_color u = sh_color s /\
              sh_width u == qmin (rwidth (sh_bbox s)) (rheight (sh_bbox s)) /\ covers (sh_bbox s) (mkRect (sh_x0 u) (sh_y0 u) (sh_x1 u) (sh_y1 u))
  end.
Proof. apply to_stroke_spec. Qed.
Print Assumptions C37_fill_to_stroke.
(** Setting the box of a stroke to a real area puts its line through the middle, along
    the longer side. *)
Theorem C37_centre_line s r : proper r -> let u := stroke_update_bbox s r in
  sh_bbox u = rround r /\
  (rheight r <= rwidth r -> sh_x0 u == rx0 r /\ sh_x1 u == rx1 r /\ sh_y0 u == (ry0 r + ry1 r) / 2 /\ sh_y1 u == (ry0 r + ry1 r) / 2) /\
  (rwidth r < rheight r -> sh_y0 u == ry0 r /\ sh_y1 u == ry1 r /\ sh_x0 u == (rx0 r + rx1 r) / 2 /\ sh_x1 u == (rx0 r + rx1 r) / 2).
Proof. apply stroke_update_proper. Qed.
Print Assumptions C37_centre_line.
(** Refuted: "every horizontal stroke starts at its left end".  A line rising by less
    than 0.001pt counts as horizontal but is turned round, so it runs from right to left
    and its box has negative width. *)
Theorem C37_almost_horizontal_refuted :
  exists ax ay bx by_, ax < bx /\ let s := new_stroke ax ay bx by_ 1 0 R_UNDEFINED in
    horizontal s = true /\ sh_x1 s < sh_x0 s /\ rx1 (sh_bbox s) < rx0 (sh_bbox s).
Proof. exists 0, (1 # 2000), 100, 0. vm_compute. repeat split; reflexivity. Qed.
Print Assumptions C37_almost_horizontal_refuted.
(** Refuted: "store/restore preserves every stroke": a stroke whose box was set (merged
    strokes, converted fills) is restored with another box. *)
Theorem C37_updated_stroke_refuted :
  exists s u, normal_box (sh_bbox s) /\ sh_kind s = KFill /\ to_stroke s 6 = Some u /\
    ~ req (sh_bbox (restore_shape (store_shape u))) (sh_bbox u).
Proof.
  exists (new_fill (mkRect 0 0 100 2) 0 R_UNDEFINED). eexists. split.
  - split; [unfold valid; vm_compute; split; discriminate|apply rround_decimal].
  - split; [reflexivity|]. split; [reflexivity|]. intros (A & _). vm_compute in A. discriminate.
Qed.
Print Assumptions C37_updated_stroke_refuted.
Example C37_ex : let s := new_stroke 100 10 20 10 2 5 R_UNDEFINED in
  sh_x0 s = 20 /\ sh_x1 s = 100 /\ req (sh_bbox s) (mkRect 19 9 101 11) /\ horizontal s = true /\ restore_shape (store_shape s) = s.
Proof. vm_compute. repeat split; reflexivity. Qed.

(* ------------------------------------------------------------------ *)
(** * C39 *)
(** Cleaning up partitions the kept shapes (those meeting the page and at least
    [min_dim] in one direction) into groups; each group of shapes of one colour becomes
    one shape whose box is the smallest box around the group, in that colour; hyperlinks
    stay alone; the only other change is that a fill no thicker than the maximum border
    width becomes a stroke. *)
Theorem C39_clean_up page w thr min_dim l : (forall s, In s l -> normal_box (sh_bbox s)) ->
  exists us gs, Forall2 stands_for us gs /\ Permutation (concat gs) (filter (keep_shape page min_dim) l) /\
    Forall2 (fun u v => req (sh_bbox v) (sh_bbox u) /\ sh_color v = sh_color u /\
      sh_kind v = match sh_kind u with
                  | KFill => if qlt w (qmin (rwidth (sh_bbox u)) (rheight (sh_bbox u))) then KFill else KStroke
                  | k => k end) us (clean_up page w thr min_dim l).
Proof. apply clean_up_spec. Qed.
Print Assumptions C39_clean_up.
(** In particular each kept shape is covered by a resulting shape of the same colour. *)
Theorem C39_covered page w thr min_dim l s : (forall x, In x l -> normal_box (sh_bbox x)) ->
  In s l -> keep_shape page min_dim s = true ->
  exists v, In v (clean_up page w thr min_dim l) /\ sh_color v = sh_color s /\ covers (sh_bbox v) (sh_bbox s).
Proof.
  intros H Hs K. destruct (clean_up_spec page w thr min_dim l H) as (us & gs & F & P & G).
  assert (Hc : In s (concat gs)) by (eapply Permutation_in; [apply Permutation_sym; exact P|]; apply filter_In; auto).
  clear P. revert G. generalize (clean_up page w thr min_dim l). induction F as [|u g us gs Hu F IH]; intros out G; [destruct Hc|].
  inversion G as [|? v ? out' Hv G']; subst. cbn in Hc. apply in_app_or in Hc. destruct Hc as [Hc|Hc].
  - exists v. split; [left; reflexivity|]. destruct Hu as (_ & Uc & (Uh & _) & _). destruct Hv as (Vb & Vc & _).
    split; [rewrite Vc; symmetry; apply Uc; exact Hc|]. eapply covers_req_l; [apply req_sym; exact Vb|]. apply Uh. exact Hc.
  - destruct (IH Hc out' G') as (v' & I & R). exists v'. split; [right; exact I|exact R].
Qed.
Print Assumptions C39_covered.
(** What is kept: positive overlap with the page and long enough. *)
Theorem C39_kept page min_dim s : proper page -> proper (sh_bbox s) ->
  keep_shape page min_dim s = true <->
  0 < area (rinter (sh_bbox s) page) /\ (min_dim <= rwidth (sh_bbox s) \/ min_dim <= rheight (sh_bbox s)).
Proof.
  intros Pp Ps. unfold keep_shape, rintersects. rewrite (proper_nonempty _ Pp), (proper_nonempty _ Ps). cbn [negb andb].
  rewrite andb_true_iff, orb_true_iff, qlt_iff, !qle_iff. reflexivity.
Qed.
Print Assumptions C39_kept.
(** Merging needs the same colour and an overlap of at least the threshold part of the
    smaller shape: shapes which pairwise lack one of the two all survive unchanged ... *)
Theorem C39_separate_survive thr l : 1 # 1000000 < thr -> (forall s, In s l -> proper (sh_bbox s)) ->
  (forall i j a b, i <> j -> nth_error l i = Some a -> nth_error l j = Some b ->
     sh_color a <> sh_color b \/
     area (rinter (sh_bbox a) (sh_bbox b)) < thr * qmin (area (sh_bbox a)) (area (sh_bbox b))) ->
  merge_shapes thr l = l.
Proof.
  intros Ht. unfold merge_shapes.
  assert (M : forall s uniq, proper (sh_bbox s) ->
    (forall u, In u uniq -> proper (sh_bbox u) /\ (sh_color s <> sh_color u \/
       area (rinter (sh_bbox s) (sh_bbox u)) < thr * qmin (area (sh_bbox s)) (area (sh_bbox u)))) ->
    merge_into thr s uniq = uniq ++ [s]).
  { intros s uniq Ps. induction uniq as [|u t IH]; intros H; [reflexivity|]. cbn [merge_into app].
    assert (IH' : merge_into thr s t = t ++ [s]) by (apply IH; intros x Hx; apply H; right; exact Hx).
    destruct (H u (or_introl eq_refl)) as (Pu & D).
    destruct (Z.eqb_spec (sh_color u) (sh_color s)) as [E|_]; cbn [negb orb]; [|rewrite IH'; reflexivity].
    destruct D as [D|D]; [congruence|].
    destruct (is_link_type s || is_link_type u); [rewrite IH'; reflexivity|].
    destruct (get_main_bbox (sh_bbox s) (sh_bbox u) thr) eqn:G; [|rewrite IH'; reflexivity].
    exfalso. assert (N : get_main_bbox (sh_bbox s) (sh_bbox u) thr <> None) by congruence.
    apply (main_bbox_ratio _ _ _ Ps Pu Ht) in N. destruct N as (_ & N). apply (Qlt_not_le _ _ D). exact N. }
  assert (G : forall l pre, (forall s, In s (pre ++ l) -> proper (sh_bbox s)) ->
    (forall i j a b, i <> j -> nth_error (pre ++ l) i = Some a -> nth_error (pre ++ l) j = Some b ->
     sh_color a <> sh_color b \/ area (rinter (sh_bbox a) (sh_bbox b)) < thr * qmin (area (sh_bbox a)) (area (sh_bbox b))) ->
    fold_left (fun u s => merge_into thr s u) l pre = pre ++ l).
  { clear l. induction l as [|s t IH]; intros pre P H; cbn [fold_left]; [rewrite app_nil_r; reflexivity|].
    rewrite M.
    - rewrite IH; rewrite <- app_assoc; [reflexivity|exact P|exact H].
    - apply P. apply in_or_app. right. left. reflexivity.
    - intros u Hu. split; [apply P; apply in_or_app; left; exact Hu|].
      apply In_nth_error in Hu. destruct Hu as [i Hi].
      assert (i < length pre)%nat by (apply nth_error_Some; congruence).
      apply (H (length pre) i s u); [lia| |].
      + rewrite nth_error_app2 by lia. rewrite Nat.sub_diag. reflexivity.
      + rewrite nth_error_app1 by assumption. exact Hi. }
  intros P H. apply (G l []); [exact P|exact H].
Qed.
Print Assumptions C39_separate_survive.
(** ... and two shapes with both (neither a hyperlink) become one. *)
Theorem C39_overlapping_merge thr a b : 1 # 1000000 < thr -> proper (sh_bbox a) -> proper (sh_bbox b) ->
  sh_color a = sh_color b -> sh_type a <> R_HYPERLINK -> sh_type b <> R_HYPERLINK ->
  0 < area (rinter (sh_bbox b) (sh_bbox a)) ->
  thr * qmin (area (sh_bbox b)) (area (sh_bbox a)) <= area (rinter (sh_bbox b) (sh_bbox a)) ->
  exists v, merge_shapes thr [a; b] = [v] /\ sh_kind v = sh_kind a /\ sh_color v = sh_color a /\
    sh_bbox v = rround (runion (sh_bbox b) (sh_bbox a)).
Proof.
  intros Ht Pa Pb C La Lb Hp Hr. cbn [merge_shapes fold_left merge_into].
  rewrite C, Z.eqb_refl. cbn [negb orb].
  assert (La' : is_link_type a = false) by (unfold is_link_type; destruct (sh_type a); try reflexivity; destruct La; reflexivity).
  assert (Lb' : is_link_type b = false) by (unfold is_link_type; destruct (sh_type b); try reflexivity; destruct Lb; reflexivity).
  rewrite La', Lb'. cbn [orb].
  destruct (get_main_bbox (sh_bbox b) (sh_bbox a) thr) as [m|] eqn:G.
  - assert (Em : m = runion (sh_bbox b) (sh_bbox a)) by (eapply runion_of_main; exact G).
    assert (Pm : proper m) by (rewrite Em; apply runion_covers; assumption).
    rewrite (proper_truthy _ Pm). exists (shape_update_bbox a m). split; [reflexivity|].
    destruct (update_bbox_kept a m) as (Kk & Kc & _). cbv zeta in *. split; [exact Kk|].
    split; [rewrite Kc; exact C|]. rewrite (update_bbox_proper a m Pm), Em. reflexivity.
  - exfalso. assert (N : get_main_bbox (sh_bbox b) (sh_bbox a) thr <> None) by (apply (main_bbox_ratio _ _ _ Pb Pa Ht); split; [exact Hp|exact Hr]).
    apply N. exact G.
Qed.
Print Assumptions C39_overlapping_merge.
(** Refuted: "no shape disappears except small ones or those outside the page": a line
    thinner than the rounding step has a box without area and is dropped. *)
Theorem C39_hairline_refuted :
  exists s page, sh_kind s = KStroke /\ 0 < sh_width s /\ covers page (sh_bbox s) /\ 100 <= rwidth (sh_bbox s) /\
    clean_up page 6 (1 # 2) 2 [s] = [].
Proof.
  exists (new_stroke 100 50 200 50 (8 # 100) 0 R_UNDEFINED), (mkRect 0 0 600 800).
  split; [reflexivity|]. split; [reflexivity|]. split; [vm_compute; repeat split; discriminate|]. split; [vm_compute; discriminate|reflexivity].
Qed.
Print Assumptions C39_hairline_refuted.
(** Refuted: "a filled area stays a filled area": a border half overlapping a fill of its
    colour swallows it and becomes a stroke as thick as the cell. *)
Theorem C39_fill_absorbed_refuted :
  exists b f page, sh_kind b = KStroke /\ sh_kind f = KFill /\ normal_box (sh_bbox b) /\ normal_box (sh_bbox f) /\
    map sh_kind (clean_up page 6 (1 # 2) 2 [b; f]) = [KStroke] /\ 6 < rheight (sh_bbox f).
Proof.
  exists (new_stroke 101 50 199 50 1 7 R_UNDEFINED), (new_fill (mkRect 100 50 200 70) 7 R_UNDEFINED), (mkRect 0 0 600 800).
  split; [reflexivity|]. split; [reflexivity|].
  split; [split; [vm_compute; split; discriminate|apply rround_decimal]|].
  split; [split; [vm_compute; split; discriminate|apply rround_decimal]|].
  split; [vm_compute; reflexivity|vm_compute; reflexivity].
Qed.
Print Assumptions C39_fill_absorbed_refuted.
Example C39_ex :
  let a := new_fill (mkRect 10 10 100 30) 7 R_UNDEFINED in let b := new_fill (mkRect 20 10 120 30) 7 R_UNDEFINED in
  let c := new_fill (mkRect 20 10 120 30) 9 R_UNDEFINED in let d := new_fill (mkRect 300 300 301 301) 9 R_UNDEFINED in
  let e := new_fill (mkRect 10 500 300 502) 9 R_UNDEFINED in
  (forall s, In s [a; b; c; d; e] -> normal_box (sh_bbox s)) /\
  map (fun s => (sh_kind s, sh_color s)) (clean_up (mkRect 0 0 600 800) 6 (1 # 2) 2 [a; b; c; d; e]) = [(KFill, 7%Z); (KFill, 9%Z); (KStroke, 9%Z)].
Proof.
  cbv zeta. split; [|vm_compute; reflexivity].
  intros s H. repeat (destruct H as [<-|H]; [split; [vm_compute; split; discriminate|apply rround_decimal]|]). destruct H.
Qed.

(* ------------------------------------------------------------------ *)
(** * C40 *)
(** The four classes, for any text layout and any shapes (in order, each shape at most
    once per class): strokes are always candidates for underline/strike and candidates
    for table borders unless inside a text line; fills are shadings if behind text and
    highlights otherwise; hyperlinks are in no class. *)
Theorem C40_classes bs l : text_layout bs ->
  (forall s, In s l -> valid (sh_bbox s) /\ shape_bool s = true /\ (sh_kind s = KFill -> proper (sh_bbox s))) ->
  let g := detect_categories bs l in
  exists inside behind : shape -> bool,
    (forall s, In s l -> sh_kind s = KStroke -> (inside s = true <-> inside_text s bs)) /\
    (forall s, In s l -> sh_kind s = KFill -> (behind s = true <-> behind_text s bs)) /\
    g_underlines g = filter (fun s => kind_eqb (sh_kind s) KStroke) l /\
    g_table_strokes g = filter (fun s => kind_eqb (sh_kind s) KStroke && negb (inside s)) l /\
    g_table_fillings g = filter (fun s => kind_eqb (sh_kind s) KFill && behind s) l /\
    g_highlights g = filter (fun s => kind_eqb (sh_kind s) KFill && negb (behind s)) l.
Proof.
  intros T H. cbv zeta. set (bs' := sort_key block_key bs).
  exists (fun s => rtype_eqb (semantic_type s bs') R_UNDERLINE_OR_STRIKE), (fun s => rtype_eqb (semantic_type s bs') R_SHADING).
  split; [|split].
  - intros s Hs K. destruct (H s Hs) as (V & _ & _). destruct (semantic_stroke s bs T V K) as [[E I]|[E I]]; fold bs' in E; rewrite E; cbn.
    + tauto.
    + split; [discriminate|contradiction].
  - intros s Hs K. destruct (H s Hs) as (_ & _ & V). destruct (semantic_fill s bs T (V K) K) as [[E I]|[E I]]; fold bs' in E; rewrite E; cbn.
    + tauto.
    + split; [discriminate|contradiction].
  - unfold detect_categories. change (sort_key _ bs) with bs'. rewrite classify_filter.
    cbn [g_underlines g_table_strokes g_table_fillings g_highlights app].
    unfold is_table_stroke, is_table_filling, is_underline, is_highlight.
    repeat split; apply filter_ext_in; intros s Hs; destruct (H s Hs) as (_ & B & _); rewrite B; cbn [andb];
      try reflexivity; pose proof (semantic_values s bs') as V; destruct (sh_kind s); cbn [kind_eqb andb]; try reflexivity;
      destruct V as [V|V]; rewrite V; reflexivity.
Qed.
Print Assumptions C40_classes.
(** Every stroke and fill with a non-zero box is in some class; no hyperlink is in any. *)
Theorem C40_complete bs l s : In s l -> shape_bool s = true -> let g := detect_categories bs l in
  match sh_kind s with
  | KStroke => In s (g_underlines g)
  | KFill => In s (g_table_fillings g) \/ In s (g_highlights g)
  | KLink => True
  end.
Proof.
  intros Hs B. cbv zeta. unfold detect_categories. change (sort_key _ bs) with (sort_key block_key bs). set (bs' := sort_key block_key bs).
  rewrite classify_filter. cbn [g_underlines g_table_strokes g_table_fillings g_highlights app].
  pose proof (semantic_values s bs') as V. destruct (sh_kind s) eqn:K; [| |exact I].
  - apply filter_In. split; [exact Hs|]. rewrite B. unfold is_underline. rewrite K. reflexivity.
  - rewrite !filter_In, B. unfold is_table_filling, is_highlight. rewrite K. destruct V as [V|V]; rewrite V; cbn; auto.
Qed.
Print Assumptions C40_complete.
Theorem C40_no_hyperlink bs l s : sh_kind s = KLink -> let g := detect_categories bs l in
  ~ In s (g_table_strokes g) /\ ~ In s (g_table_fillings g) /\ ~ In s (g_underlines g) /\ ~ In s (g_highlights g).
Proof.
  intros K. cbv zeta. unfold detect_categories. change (sort_key _ bs) with (sort_key block_key bs).
  rewrite classify_filter. cbn [g_underlines g_table_strokes g_table_fillings g_highlights app].
  unfold is_table_stroke, is_table_filling, is_underline, is_highlight.
  repeat split; intros H; apply filter_In in H; destruct H as [_ H]; rewrite K in H; destruct (shape_bool s); discriminate.
Qed.
Print Assumptions C40_no_hyperlink.
Example C40_ex :
  let b := mkTblock (mkRect 100 100 300 112) [mkRect 100 100 300 112] in
  let u := new_stroke 110 110 200 110 1 0 R_UNDEFINED in let t := new_stroke 100 200 300 200 1 0 R_UNDEFINED in
  let f := new_fill (mkRect 90 95 310 120) 7 R_UNDEFINED in let h := new_fill (mkRect 110 100 150 112) 7 R_UNDEFINED in
  let k := new_link (mkRect 110 100 150 112) 1 in
  let g := detect_categories [b] [u; t; f; h; k] in
  g_table_strokes g = [t] /\ g_table_fillings g = [f] /\ g_underlines g = [u; t] /\ g_highlights g = [h].
Proof. vm_compute. auto. Qed.

(* ------------------------------------------------------------------ *)
(** * C48 *)
(** Assigning shapes to tables: each shape stays in the layout or goes to one table; none
    is lost or duplicated, borders and shadings of the tables themselves stay, and a shape
    given to a table lies in its box and in the box of no earlier table. *)
Theorem C48_shapes_distributed tables l :
  Permutation l (shapes_kept tables l ++ concat (map (shapes_of_table tables l) (seq 0 (length tables)))).
Proof. apply split_targets. Qed.
Print Assumptions C48_shapes_distributed.
Theorem C48_first_table tables l s k : In s (shapes_of_table tables l k) <->
  In s l /\ sh_type s <> R_BORDER /\ sh_type s <> R_SHADING /\
  (exists t, nth_error tables k = Some t /\ rcontains t (sh_bbox s) = true) /\
  (forall j t, (j < k)%nat -> nth_error tables j = Some t -> rcontains t (sh_bbox s) = false).
Proof.
  unfold shapes_of_table. rewrite filter_In.
  assert (G : forall tables k0, table_of s k0 tables = Some (k0 + k)%nat <->
    (exists t, nth_error tables k = Some t /\ rcontains t (sh_bbox s) = true) /\
    (forall j t, (j < k)%nat -> nth_error tables j = Some t -> rcontains t (sh_bbox s) = false)).
  { clear. revert k. intros k tables. revert k. induction tables as [|t r IH]; intros k k0; cbn.
    - split; [discriminate|]. intros [(t & H & _) _]. destruct k; discriminate.
    - destruct (rcontains t (sh_bbox s)) eqn:C.
      + destruct k as [|k].
        * rewrite Nat.add_0_r. split; [|reflexivity]. intros _. split; [exists t; auto|]. intros j t' Hj. lia.
        * split; [intros E; injection E; lia|]. intros [_ H]. specialize (H 0%nat t ltac:(lia) eq_refl). congruence.
      + destruct k as [|k].
        * rewrite Nat.add_0_r. split.
          -- intros E. apply table_of_range in E. lia.
          -- intros [(t' & E & C') _]. cbn in E. injection E as <-. congruence.
        * replace (k0 + S k)%nat with (S k0 + k)%nat by lia. rewrite (IH k (S k0)). cbn [nth_error]. split.
          -- intros [A B]. split; [exact A|]. intros [|j] t' Hj E; [cbn in E; injection E as <-; exact C|]. apply (B j t'); [lia|exact E].
          -- intros [A B]. split; [exact A|]. intros j t' Hj E. apply (B (S j) t'); [lia|exact E]. }
  specialize (G tables 0%nat). cbn in G. split.
  - intros [Hl H]. destruct (shape_target tables s) as [j|] eqn:E; [|discriminate]. apply Nat.eqb_eq in H. subst j.
    unfold shape_target in E. destruct (sh_type s); try discriminate; apply G in E; repeat split; try tauto; try discriminate; apply E.
  - intros (Hl & N1 & N2 & H). split; [exact Hl|]. assert (E : shape_target tables s = Some k).
    { unfold shape_target. destruct (sh_type s); try contradiction; apply G; exact H. }
    rewrite E. apply Nat.eqb_refl.
Qed.
Print Assumptions C48_first_table.
Theorem C48_borders_stay tables l s : In s l -> sh_type s = R_BORDER \/ sh_type s = R_SHADING -> In s (shapes_kept tables l).
Proof. intros H E. apply filter_In. split; [exact H|]. unfold shape_target. destruct E as [-> | ->]; reflexivity. Qed.
Print Assumptions C48_borders_stay.
Example C48_ex : let s := new_fill (mkRect 20 20 30 30) 7 R_UNDEFINED in let t := new_fill (mkRect 20 20 300 30) 7 R_UNDEFINED in
  shapes_of_table [mkRect 200 200 300 300; mkRect 0 0 100 100] [t; s] 1 = [s] /\
  shapes_kept [mkRect 200 200 300 300; mkRect 0 0 100 100] [t; s] = [t].
Proof. vm_compute. auto. Qed.
