(** Properties C28-C30, C54-C56: table structure. *)
From Verif Require Import GeomModel GeomSpec GeomProof ShapeModel ShapeProof ParaModel ParaProof TableModel TableSpec TableProof.
From Coq Require Import Lia Permutation Lqa Sorted.
Open Scope Q_scope.

(* ------------------------------------------------------------------ *)
(** * C28: the grid *)
(** Strictly increasing coordinates, the same number of cells in each row, and every cell
    bounded by coordinates of the grid, inside the table. *)
Theorem C28_grid c w strokes fills st : parse_structure c w strokes fills = Parsed st ->
  StronglySorted Qlt (st_xs st) /\ StronglySorted Qlt (st_ys st) /\ (1 <= ncols st)%nat /\ (1 <= nrows st)%nat /\
  length (st_cells st) = nrows st /\ (forall r, In r (st_cells st) -> length r = ncols st) /\
  (forall i j ce, cell_at st i j ce -> (j + ce_cols ce <= ncols st)%nat /\ (i + ce_rows ce <= nrows st)%nat /\
     nth_error (st_xs st) j = Some (rx0 (ce_bbox ce)) /\ nth_error (st_xs st) (j + ce_cols ce) = Some (rx1 (ce_bbox ce)) /\
     nth_error (st_ys st) i = Some (ry0 (ce_bbox ce)) /\ nth_error (st_ys st) (i + ce_rows ce) = Some (ry1 (ce_bbox ce))).
Proof.
  intros P. destruct (parse_inv _ _ _ _ _ P) as (vb & hb & G & Ex & Ey & Lx & Ly & Ev & Eh & Lc & Lr & _).
  destruct (group_h_v_distinct _ _ _ _ _ G) as (Dh & Dv).
  split; [rewrite Ex; apply sorted_keys_sorted; exact Dv|]. split; [rewrite Ey; apply sorted_keys_sorted; exact Dh|].
  unfold ncols, nrows in *. split; [lia|]. split; [lia|]. split; [exact Lc|]. split; [exact Lr|]. intros i j ce Hc.
  destruct (cell_shell _ _ _ _ _ _ _ P Ev Eh i j ce Hc) as (Hi & Hj & Sh). unfold ncols, nrows in *.
  destruct (lookup_all_nth _ _ _ Ev) as (Lvb & _). destruct (lookup_all_nth _ _ _ Eh) as (Lhb & _).
  pose proof (merge_in_range (st_xs st) (st_ys st) vb hb i j Lvb Lhb Hi Hj) as B. cbv zeta in B. unfold shell in Sh. injection Sh as S1 S2 S3. unfold merge_cell in B. cbn [ce_cols ce_rows] in B. rewrite <- S1, <- S2 in B.
  split; [apply B|]. split; [apply B|]. rewrite S3. unfold merge_cell. cbn [ce_bbox rx0 rx1 ry0 ry1].
  assert (C1 : ce_cols ce = count_merged (status_at (row_status (st_xs st) (st_ys st) vb) i j)) by exact S2.
  assert (R1 : ce_rows ce = count_merged (status_at (col_status (st_xs st) (st_ys st) hb) j i)) by exact S1.
  rewrite <- C1, <- R1. repeat split; apply nth_error_nth'; lia.
Qed.
Print Assumptions C28_grid.
(** The coordinates of the grid are those of the grouped strokes. *)
Theorem C28_lines c w strokes fills st : parse_structure c w strokes fills = Parsed st ->
  (forall x, In x (st_xs st) <-> exists v, In (x, v) (st_v st)) /\ (forall y, In y (st_ys st) <-> exists v, In (y, v) (st_h st)) /\
  (forall k v v', In (k, v) (st_v st) -> In (k, v') (st_v st) -> v = v') /\ (forall k v v', In (k, v) (st_h st) -> In (k, v') (st_h st) -> v = v').
Proof.
  intros P. destruct (parse_inv _ _ _ _ _ P) as (vb & hb & G & Ex & Ey & _). destruct (group_h_v_distinct _ _ _ _ _ G) as (Dh & Dv).
  assert (K : forall d x, In x (keys d) <-> exists v, In (x, v) d).
  { intros d x. unfold keys. rewrite in_map_iff. split; [intros ((k & v) & <- & H); exists v; exact H|intros (v & H); exists (x, v); auto]. }
  rewrite Ex, Ey. split; [intros x; rewrite sorted_keys_In; apply K|]. split; [intros x; rewrite sorted_keys_In; apply K|].
  split; intros k v v' H H'; [pose proof (dget_distinct _ _ _ Dv H); pose proof (dget_distinct _ _ _ Dv H')|pose proof (dget_distinct _ _ _ Dh H); pose proof (dget_distinct _ _ _ Dh H')]; congruence.
Qed.
Print Assumptions C28_lines.
(** Parsing ends with a table, with nothing, or - only for at least two rows of borders in
    a single column - with an exception. *)
Theorem C28_total c w strokes fills : match parse_structure c w strokes fills with
  | Parsed _ => True
  | NoTable => (forall s, In s strokes -> horizontal s = false) \/ (forall s, In s strokes -> vertical s = true -> horizontal s = true) \/
               exists hd vd k v, group_h_v c w strokes = Some (hd, vd) /\ hd = [(k, v)]
  | Failed => exists hd vd k v, group_h_v c w strokes = Some (hd, vd) /\ vd = [(k, v)]
  end.
Proof.
  pose proof (parse_total c w strokes fills) as T.
  assert (One : forall d : dict, d <> [] -> (length d <= 1)%nat -> exists k v, d = [(k, v)]).
  { intros [|[k v] [|p t]] N L; [congruence|eauto|cbn in L; lia]. }
  assert (Ne : forall hd vd, group_h_v c w strokes = Some (hd, vd) -> hd <> [] /\ vd <> []).
  { unfold group_h_v. intros hd vd. destruct (h_part strokes) as [|a hs] eqn:Eh; [discriminate|]. destruct (v_part strokes) as [|b vs] eqn:Ev; [discriminate|]. intros H. injection H as <- <-.
    split; apply check_outer_nonempty, check_outer_nonempty, group_not_nil; discriminate. }
  destruct (parse_structure c w strokes fills); [| |exact I].
  - destruct (group_h_v c w strokes) as [[hd vd]|] eqn:G.
    + right. right. destruct (Ne hd vd eq_refl) as (N & _). destruct (One hd N T) as (k & v & ->). exists [(k, v)], vd, k, v. auto.
    + unfold group_h_v in G. destruct (h_part strokes) as [|a hs] eqn:Eh.
      * left. intros s Hs. destruct (horizontal s) eqn:X; [|reflexivity]. assert (In s (h_part strokes)) by (apply filter_In; auto). rewrite Eh in H. destruct H.
      * destruct (v_part strokes) as [|b vs] eqn:Ev; [|discriminate]. right. left. intros s Hs V. destruct (horizontal s) eqn:X; [reflexivity|]. assert (In s (v_part strokes)) by (apply filter_In; rewrite X, V; auto). rewrite Ev in H. destruct H.
  - destruct T as (hd & vd & G & _ & L). destruct (Ne hd vd G) as (_ & N). destruct (One vd N L) as (k & v & ->). exists hd, [(k, v)], k, v. auto.
Qed.
Print Assumptions C28_total.
(** When rows (columns) of strokes are clear - being within the clearance is transitive -
    and no line lies more than the border width outside the spanned box, each stroke is on
    one line of the grid, with exactly the strokes near it (and added empty ones); the line
    lies between them. *)
Theorem C28_clear h c w strokes fills st r : 0 <= c -> 0 <= w -> parse_structure c w strokes fills = Parsed st -> spanned strokes r ->
  (forall s, In s strokes -> drawn s /\ shape_bool s = true) -> clear_lines h c (dir_part h strokes) ->
  (forall s, In s (dir_part h strokes) -> side0 h r - w <= coord h s <= side1 h r + w) ->
  forall s, In s (dir_part h strokes) -> exists k v, In (k, v) (lines_of h st) /\
    (forall t, In t (dir_part h strokes) -> near c (coord h t) (coord h s) -> In t v) /\
    (forall t, In t v -> (In t (dir_part h strokes) /\ near c (coord h t) (coord h s)) \/ sh_width t == 0) /\
    exists a b, In a (dir_part h strokes) /\ In b (dir_part h strokes) /\ near c (coord h a) (coord h s) /\ near c (coord h b) (coord h s) /\ coord h a <= k <= coord h b.
Proof.
  intros Hc Hw P Sp D Cl Ins s Hs. destruct (lines_inv _ _ _ _ _ P) as (Nh & Nv & E). destruct (E h) as (E1 & _). rewrite E1.
  pose proof (spanned_region _ _ Sp Nh Nv) as (R1 & R2 & R3 & R4).
  apply clear_kept; try assumption.
  - apply region_valid; try assumption. intros t Ht. destruct (D t Ht) as ((_ & _ & A & B) & _). auto.
  - intros t Ht. apply D, (dir_part_incl h), Ht.
  - intros t Ht. specialize (Ins t Ht). unfold side0, side1, b_at in *. destruct h; lra.
Qed.
Print Assumptions C28_clear.
(** Every side of the spanned box is bordered: a line of the grid within the maximum border
    width, without a gap of more than one point on either side. *)
Theorem C28_sides c w strokes fills st r : 0 <= w -> parse_structure c w strokes fills = Parsed st -> spanned strokes r ->
  (forall s, In s strokes -> drawn s) ->
  has_side true (st_h st) w (ry0 r) (rx0 r) (rx1 r) /\ has_side true (st_h st) w (ry1 r) (rx0 r) (rx1 r) /\
  has_side false (st_v st) w (rx0 r) (ry0 r) (ry1 r) /\ has_side false (st_v st) w (rx1 r) (ry0 r) (ry1 r).
Proof.
  intros Hw P Sp D. destruct (lines_inv _ _ _ _ _ P) as (Nh & Nv & E). pose proof (spanned_region _ _ Sp Nh Nv) as (R1 & R2 & R3 & R4).
  set (g := table_region (h_part strokes) (v_part strokes)) in *.
  assert (Vr : valid g) by (apply region_valid; try assumption; intros t Ht; destruct (D t Ht) as (_ & _ & A & B); auto).
  assert (Both : forall h, side_done g w h true (lines_of h st) /\ side_done g w h false (lines_of h st)).
  { intros h. destruct (E h) as (E1 & L). cbv zeta in E1. rewrite E1 in *. apply check_both; try assumption.
    - apply region_decimal.
    - apply group_not_nil, dir_part_not_nil; assumption.
    - apply group_nonempty.
    - apply group_distinct.
    - intros s Hs. apply group_incl, dir_part_incl in Hs. destruct (D s Hs) as (A & B & _). auto. }
  assert (Conv : forall h first at_ a b d, side_done g w h first d -> at_ == b_at h first g -> a == b_from h g -> b == b_to h g -> has_side h d w at_ a b).
  { intros h first at_ a b d (k & v & Ek & Nk & Cv) E1 E2 E3. destruct (dget_In _ _ _ Ek) as (k' & Ik & Eq). exists k', v. split; [exact Ik|].
    split; [assert (Z : at_ - k' == b_at h first g - k) by lra; rewrite Z; exact Nk|]. intros x Hx. destruct (Cv x) as (s & Is & Ss); [lra|]. exists s. split; [exact Is|]. unfold covers. exact Ss. }
  destruct (Both true) as (A1 & A2). destruct (Both false) as (B1 & B2). cbn [lines_of] in *.
  repeat split; [apply (Conv true true)|apply (Conv true false)|apply (Conv false true)|apply (Conv false false)]; try assumption; cbn [b_at b_from b_to]; symmetry; assumption.
Qed.
Print Assumptions C28_sides.

(* ------------------------------------------------------------------ *)
(** * C29: merge counts *)
(** Strokes of each line ordered by starting point: the counts are the runs up to the next
    border that crosses the middle of the row (column). *)
Theorem C29_counts c w strokes fills st i j ce : parse_structure c w strokes fills = Parsed st -> ordered_strokes true (st_h st) -> ordered_strokes false (st_v st) -> cell_at st i j ce ->
  run_length (fun k => left_border st i k) (ncols st) j (ce_cols ce) /\ run_length (fun k => top_border st k j) (nrows st) i (ce_rows ce).
Proof. apply counts. Qed.
Print Assumptions C29_counts.
(** In any order a counted cell has its left (top) border. *)
Theorem C29_sound c w strokes fills st i j ce : parse_structure c w strokes fills = Parsed st -> cell_at st i j ce ->
  ((0 < ce_cols ce)%nat -> left_border st i j) /\ ((0 < ce_rows ce)%nat -> top_border st i j).
Proof. apply counts_sound. Qed.
Print Assumptions C29_sound.
(** Counts of a row (column) that starts with a border add up to the number of columns
    (rows). *)
Theorem C29_row_sum c w strokes fills st i r : parse_structure c w strokes fills = Parsed st -> nth_error (st_cells st) i = Some r ->
  (forall ce, nth_error r 0 = Some ce -> (0 < ce_cols ce)%nat) -> total (map ce_cols r) = ncols st.
Proof. apply row_sum. Qed.
Print Assumptions C29_row_sum.
Theorem C29_col_sum c w strokes fills st j : parse_structure c w strokes fills = Parsed st -> (j < ncols st)%nat ->
  (forall ce, cell_at st 0 j ce -> (0 < ce_rows ce)%nat) -> forall col, length col = nrows st -> (forall i ce, nth_error col i = Some ce -> cell_at st i j ce) -> total (map ce_rows col) = nrows st.
Proof. apply col_sum. Qed.
Print Assumptions C29_col_sum.

(* ------------------------------------------------------------------ *)
(** * C30: merged cells and the grid *)
(** Rectangular regions whose edges carry exactly the borders: each position belongs to
    exactly one cell. *)
Theorem C30_partition c w strokes fills st g : parse_structure c w strokes fills = Parsed st -> ordered_strokes true (st_h st) -> ordered_strokes false (st_v st) ->
  partition (nrows st) (ncols st) g ->
  (forall i j, (i < nrows st)%nat -> (j < ncols st)%nat -> (left_border st i j <-> reg_left (g i j) = j) /\ (top_border st i j <-> reg_top (g i j) = i)) ->
  forall p q, (p < nrows st)%nat -> (q < ncols st)%nat ->
    exists i j ce, cell_at st i j ce /\ is_merged ce = false /\ takes ce i j p q /\ g p q = (i, j, ce_rows ce, ce_cols ce) /\
      forall i' j' ce', cell_at st i' j' ce' -> is_merged ce' = false -> takes ce' i' j' p q -> i' = i /\ j' = j.
Proof.
  intros P Oh Ov Pa Bo p q Hp Hq. destruct (parse_inv _ _ _ _ _ P) as (vb & hb & _ & _ & _ & _ & _ & _ & _ & Lc & Lr & A).
  assert (Ext : forall i j ce, (i < nrows st)%nat -> (j < ncols st)%nat -> cell_at st i j ce -> run_length (fun k => reg_left (g i k) = k) (ncols st) j (ce_cols ce) /\ run_length (fun k => reg_top (g k j) = k) (nrows st) i (ce_rows ce)).
  { intros i j ce Hi Hj Hc. destruct (counts _ _ _ _ _ _ _ _ P Oh Ov Hc) as (B1 & B2). split.
    - eapply run_length_ext; [|exact Hj|exact B1]. intros k Hk. apply (Bo i k Hi Hk).
    - eapply run_length_ext; [|exact Hi|exact B2]. intros k Hk. apply (Bo k j Hk Hj). }
  destruct (g p q) as [[[i j] m] n] eqn:E. destruct (region_run _ _ _ Pa p q i j m n Hp Hq E) as (R1 & R2 & Hi & Hj).
  destruct (A i j Hi Hj) as (ce & Hc & _). destruct (Ext i j ce Hi Hj Hc) as (C1 & C2).
  pose proof (run_length_fun _ _ _ _ _ C1 R1) as En. pose proof (run_length_fun _ _ _ _ _ C2 R2) as Em. subst m n.
  destruct (Pa p q Hp Hq) as (Ip & Ap). rewrite E in Ip, Ap.
  exists i, j, ce. split; [exact Hc|]. split.
  - unfold is_merged. cbn in Ip. apply Bool.orb_false_iff. split; apply Nat.eqb_neq; lia.
  - split; [exact Ip|]. split; [reflexivity|]. intros i' j' ce' Hc' M' T'.
    assert (Hij : (i' < nrows st)%nat /\ (j' < ncols st)%nat).
    { destruct Hc' as (r & H1 & H2). split; [rewrite <- Lc; apply nth_error_Some; congruence|]. rewrite <- (Lr r (nth_error_In _ _ H1)). apply nth_error_Some. congruence. }
    destruct Hij as (Hi' & Hj'). destruct (Ext i' j' ce' Hi' Hj' Hc') as (D1 & D2). unfold is_merged in M'. apply Bool.orb_false_iff in M'. destruct M' as (M1 & M2). apply Nat.eqb_neq in M1, M2.
    assert (G1 : reg_left (g i' j') = j') by (destruct D1 as [(X & Y)|(X & _)]; [congruence|exact X]). assert (G2 : reg_top (g i' j') = i') by (destruct D2 as [(X & Y)|(X & _)]; [congruence|exact X]).
    destruct (g i' j') as [[[i2 j2] m2] n2] eqn:E2. cbn in G1, G2. subst i2 j2. destruct (region_run _ _ _ Pa i' j' i' j' m2 n2 Hi' Hj' E2) as (R1' & R2' & _ & _).
    pose proof (run_length_fun _ _ _ _ _ D1 R1') as En. pose proof (run_length_fun _ _ _ _ _ D2 R2') as Em. subst m2 n2.
    destruct (Pa i' j' Hi' Hj') as (_ & A2). rewrite E2 in A2. destruct (A2 p q T') as (_ & _ & X). rewrite E in X. injection X as -> -> _ _. split; reflexivity.
Qed.
Print Assumptions C30_partition.

(* ------------------------------------------------------------------ *)
(** * C54: borders and shading of a cell *)
(** The border of each side is the first stroke on the line of that side sharing at least
    5 points with it, provided those strokes share three quarters of the side and have one
    colour; otherwise no border. *)
Theorem C54_borders c w strokes fills st i j ce : parse_structure c w strokes fills = Parsed st -> ordered_strokes true (st_h st) -> ordered_strokes false (st_v st) ->
  cell_at st i j ce -> is_merged ce = false ->
  exists tp bt lf rg vt vm vl vr, ce_borders ce = Some (tp, bt, lf, rg) /\ let b := ce_bbox ce in
    In (ry0 b, vt) (st_h st) /\ In (ry1 b, vm) (st_h st) /\ In (rx0 b, vl) (st_v st) /\ In (rx1 b, vr) (st_v st) /\
    border_rule true (rx0 b) (rx1 b) vt tp /\ border_rule true (rx0 b) (rx1 b) vm bt /\ border_rule false (ry0 b) (ry1 b) vl lf /\ border_rule false (ry0 b) (ry1 b) vr rg.
Proof.
  intros P Oh Ov Hc M. destruct (cell_finish _ _ _ _ _ _ _ _ P Hc M) as (bs & Pb & Eb & _). destruct (C28_grid _ _ _ _ _ P) as (Sx & Sy & _ & _ & _ & _ & A). destruct (A i j ce Hc) as (B1 & B2 & X0 & X1 & Y0 & Y1).
  destruct (C28_lines _ _ _ _ _ P) as (Kx & Ky & _). unfold is_merged in M. apply Bool.orb_false_iff in M. destruct M as (M1 & M2). apply Nat.eqb_neq in M1, M2.
  destruct (parse_inv _ _ _ _ _ P) as (vb & hb & G & _). destruct (group_h_v_distinct _ _ _ _ _ G) as (Dh & Dv).
  assert (Lt : forall l, StronglySorted Qlt l -> forall m n a b, (m < n)%nat -> nth_error l m = Some a -> nth_error l n = Some b -> a < b).
  { induction 1 as [|x l Sl IH F]; intros m n a b Hmn Ha Hb; [destruct m; discriminate|]. destruct n as [|n]; [lia|]. destruct m as [|m].
    - cbn in Ha, Hb. injection Ha as <-. rewrite Forall_forall in F. apply F, (nth_error_In _ _ Hb).
    - apply (IH m n); [lia|exact Ha|exact Hb]. }
  pose proof (Lt _ Sx j (j + ce_cols ce)%nat _ _ ltac:(lia) X0 X1) as Wx. pose proof (Lt _ Sy i (i + ce_rows ce)%nat _ _ ltac:(lia) Y0 Y1) as Wy.
  pose proof (proj1 (Kx _) (nth_error_In _ _ X0)) as (vl & Il). pose proof (proj1 (Kx _) (nth_error_In _ _ X1)) as (vr & Ir). pose proof (proj1 (Ky _) (nth_error_In _ _ Y0)) as (vt & It). pose proof (proj1 (Ky _) (nth_error_In _ _ Y1)) as (vm & Im).
  unfold parse_borders in Pb. rewrite (dget_distinct _ _ _ Dh It), (dget_distinct _ _ _ Dh Im), (dget_distinct _ _ _ Dv Il), (dget_distinct _ _ _ Dv Ir) in Pb. injection Pb as <-.
  do 8 eexists. split; [exact Eb|]. cbv zeta. split; [exact It|]. split; [exact Im|]. split; [exact Il|]. split; [exact Ir|].
  split; [apply border_rule_ok; [exact Wx|apply (Oh _ _ It)]|]. split; [apply border_rule_ok; [exact Wx|apply (Oh _ _ Im)]|].
  split; [apply border_rule_ok; [exact Wy|apply (Ov _ _ Il)]|apply border_rule_ok; [exact Wy|apply (Ov _ _ Ir)]].
Qed.
Print Assumptions C54_borders.
(** In any order of strokes: a border is a stroke of its line that shares at least 5 points
    with the side, or absent; so the short sides of a cell under 5 points have no border. *)
Theorem C54_borders_sound c w strokes fills st i j ce : parse_structure c w strokes fills = Parsed st -> cell_at st i j ce -> is_merged ce = false ->
  exists tp bt lf rg, ce_borders ce = Some (tp, bt, lf, rg) /\ let b := ce_bbox ce in
    (tp = empty_stroke \/ exists v, In (ry0 b, v) (st_h st) /\ In tp v /\ 5 <= shared true (rx0 b) (rx1 b) tp) /\
    (bt = empty_stroke \/ exists v, In (ry1 b, v) (st_h st) /\ In bt v /\ 5 <= shared true (rx0 b) (rx1 b) bt) /\
    (lf = empty_stroke \/ exists v, In (rx0 b, v) (st_v st) /\ In lf v /\ 5 <= shared false (ry0 b) (ry1 b) lf) /\
    (rg = empty_stroke \/ exists v, In (rx1 b, v) (st_v st) /\ In rg v /\ 5 <= shared false (ry0 b) (ry1 b) rg).
Proof.
  intros P Hc M. destruct (cell_finish _ _ _ _ _ _ _ _ P Hc M) as (bs & Pb & Eb & _). destruct (C28_grid _ _ _ _ _ P) as (Sx & Sy & _ & _ & _ & _ & A). destruct (A i j ce Hc) as (B1 & B2 & X0 & X1 & Y0 & Y1).
  destruct (C28_lines _ _ _ _ _ P) as (Kx & Ky & _).
  destruct (parse_inv _ _ _ _ _ P) as (vb & hb & G & _). destruct (group_h_v_distinct _ _ _ _ _ G) as (Dh & Dv).
  pose proof (proj1 (Kx _) (nth_error_In _ _ X0)) as (vl & Il). pose proof (proj1 (Kx _) (nth_error_In _ _ X1)) as (vr & Ir). pose proof (proj1 (Ky _) (nth_error_In _ _ Y0)) as (vt & It). pose proof (proj1 (Ky _) (nth_error_In _ _ Y1)) as (vm & Im).
  unfold parse_borders in Pb. rewrite (dget_distinct _ _ _ Dh It), (dget_distinct _ _ _ Dh Im), (dget_distinct _ _ _ Dv Il), (dget_distinct _ _ _ Dv Ir) in Pb. injection Pb as <-.
  do 4 eexists. split; [exact Eb|]. cbv zeta.
  split; [destruct (border_sound true (rx0 (ce_bbox ce)) (rx1 (ce_bbox ce)) vt) as [H|(H1 & H2)]; [left; exact H|right; eauto]|].
  split; [destruct (border_sound true (rx0 (ce_bbox ce)) (rx1 (ce_bbox ce)) vm) as [H|(H1 & H2)]; [left; exact H|right; eauto]|].
  split; [destruct (border_sound false (ry0 (ce_bbox ce)) (ry1 (ce_bbox ce)) vl) as [H|(H1 & H2)]; [left; exact H|right; eauto]|].
  destruct (border_sound false (ry0 (ce_bbox ce)) (ry1 (ce_bbox ce)) vr) as [H|(H1 & H2)]; [left; exact H|right; eauto].
Qed.
Print Assumptions C54_borders_sound.
Corollary C54_narrow_cell c w strokes fills st i j ce tp bt lf rg : parse_structure c w strokes fills = Parsed st -> cell_at st i j ce -> is_merged ce = false ->
  ce_borders ce = Some (tp, bt, lf, rg) -> (rwidth (ce_bbox ce) < 5 -> tp = empty_stroke /\ bt = empty_stroke) /\ (rheight (ce_bbox ce) < 5 -> lf = empty_stroke /\ rg = empty_stroke).
Proof.
  intros P Hc M E. destruct (C54_borders_sound _ _ _ _ _ _ _ _ P Hc M) as (tp' & bt' & lf' & rg' & E' & T & B & L & R). rewrite E in E'. injection E' as <- <- <- <-. unfold rwidth, rheight.
  assert (Sl : forall h a b s, 5 <= shared h a b s -> 5 <= b - a) by (intros h a b s H; pose proof (shared_le h a b s); lra).
  split; intros W; split; [destruct T as [T'|(v & _ & _ & T')]|destruct B as [T'|(v & _ & _ & T')]|destruct L as [T'|(v & _ & _ & T')]|destruct R as [T'|(v & _ & _ & T')]]; try exact T'; apply Sl in T'; lra.
Qed.
(** Shading: the first fill containing nine tenths of the cell inside its borders. *)
Theorem C54_shading c w strokes fills st i j ce tp bt lf rg : parse_structure c w strokes fills = Parsed st -> cell_at st i j ce -> is_merged ce = false -> ce_borders ce = Some (tp, bt, lf, rg) ->
  let b := ce_bbox ce in
  let inner := rround (mkRect (rx0 b + sh_width lf / 2) (ry0 b + sh_width tp / 2) (rx1 b - sh_width rg / 2) (ry1 b - sh_width bt / 2)) in
  match ce_shading ce with
  | Some f => exists pre post, fills = pre ++ f :: post /\ contains (sh_bbox f) inner (9 # 10) = true /\ forall g, In g pre -> contains (sh_bbox g) inner (9 # 10) = false
  | None => forall g, In g fills -> contains (sh_bbox g) inner (9 # 10) = false
  end.
Proof.
  intros P Hc M E. cbv zeta. destruct (cell_finish _ _ _ _ _ _ _ _ P Hc M) as (bs & _ & Eb & Es). rewrite E in Eb. injection Eb as <-. rewrite Es. unfold parse_shading. unfold FACTOR_MOST.
  set (inner := rround _). clearbody inner. clear. induction fills as [|f t IH]; [intros g []|]. cbn [find]. destruct (contains (sh_bbox f) inner (9 # 10)) eqn:C.
  - exists [], t. split; [reflexivity|]. split; [exact C|intros g []].
  - destruct (find _ t) as [g|].
    + destruct IH as (pre & post & -> & A & B). exists (f :: pre), post. split; [reflexivity|]. split; [exact A|]. intros u [<-|Hu]; [exact C|apply B, Hu].
    + intros g [<-|Hg]; [exact C|apply IH, Hg].
Qed.
Print Assumptions C54_shading.

(* ------------------------------------------------------------------ *)
(** * C56: the table block and the docx table *)
(** If every row keeps a cell with a box, the block has all rows and columns, each row its
    height, each cell the data parsed, and every cell fits into the docx table. *)
Theorem C56_block c w strokes fills st : parse_structure c w strokes fills = Parsed st ->
  (forall i, (i < nrows st)%nat -> exists j ce, cell_at st i j ce /\ is_merged ce = false /\ rect_empty (rround (ce_bbox ce)) = false) ->
  length (to_table st) = nrows st /\
  (forall i r, nth_error (to_table st) i = Some r -> length (br_cells r) = ncols st /\
     (exists y0 y1, nth_error (st_ys st) i = Some y0 /\ nth_error (st_ys st) (S i) = Some y1 /\ br_height r = y1 - y0) /\
     forall j ce, cell_at st i j ce -> exists o, nth_error (br_cells r) j = Some o /\
       match o with
       | None => is_merged ce = true
       | Some b => is_merged ce = false /\ bc_bbox b = rround (ce_bbox ce) /\ bc_merged b = (ce_rows ce, ce_cols ce) /\ bc_bg b = option_map sh_color (ce_shading ce) /\
           exists tp bt lf rg, ce_borders ce = Some (tp, bt, lf, rg) /\ bc_colors b = (sh_color tp, sh_color rg, sh_color bt, sh_color lf) /\ bc_widths b = (sh_width tp, sh_width rg, sh_width bt, sh_width lf)
       end) /\
  docx_ok (to_table st) = true.
Proof.
  intros P Full. destruct (C28_grid _ _ _ _ _ P) as (Sx & Sy & Pc & Pr & Lc & Lr & A).
  assert (Mc : forall i j ce, cell_at st i j ce -> match make_cell ce with
    | None => is_merged ce = true
    | Some b => is_merged ce = false /\ bc_bbox b = rround (ce_bbox ce) /\ bc_merged b = (ce_rows ce, ce_cols ce) /\ bc_bg b = option_map sh_color (ce_shading ce) /\
           exists tp bt lf rg, ce_borders ce = Some (tp, bt, lf, rg) /\ bc_colors b = (sh_color tp, sh_color rg, sh_color bt, sh_color lf) /\ bc_widths b = (sh_width tp, sh_width rg, sh_width bt, sh_width lf)
    end).
  { intros i j ce Hc. unfold make_cell. destruct (is_merged ce) eqn:M; [reflexivity|]. destruct (cell_finish _ _ _ _ _ _ _ _ P Hc M) as (bs & _ & Eb & _). rewrite Eb. destruct bs as [[[tp bt] lf] rg].
    cbn [bc_bbox bc_merged bc_bg bc_colors bc_widths]. repeat (split; [reflexivity|]). exists tp, bt, lf, rg. repeat split. }
  assert (Vc : forall i j ce, cell_at st i j ce -> valid (ce_bbox ce)).
  { intros i j ce Hc. destruct (A i j ce Hc) as (B1 & B2 & X0 & X1 & Y0 & Y1).
    assert (Le : forall l, StronglySorted Qlt l -> forall m n a b, (m <= n)%nat -> nth_error l m = Some a -> nth_error l n = Some b -> a <= b).
    { induction 1 as [|x l Sl IH F]; intros m n a b Hmn Ha Hb; [destruct m; discriminate|]. destruct n as [|n].
      - destruct m; [|lia]. cbn in Ha, Hb. injection Ha as <-. injection Hb as <-. lra.
      - destruct m as [|m]; [cbn in Ha, Hb; injection Ha as <-; rewrite Forall_forall in F; apply Qlt_le_weak, F, (nth_error_In _ _ Hb)|]. apply (IH m n); [lia|exact Ha|exact Hb]. }
    split; [apply (Le _ Sx j (j + ce_cols ce)%nat)|apply (Le _ Sy i (i + ce_rows ce)%nat)]; try assumption; lia. }
  assert (Nth : forall i r, nth_error (make_rows st) i = Some r -> exists y0 y1 cs, nth_error (st_ys st) i = Some y0 /\ nth_error (st_ys st) (S i) = Some y1 /\ nth_error (st_cells st) i = Some cs /\ r = mkBrow (y1 - y0) (map make_cell cs)).
  { intros i r H. unfold make_rows in H. rewrite nth_error_map, combine_nth_error in H. destruct (nth_error (intervals (st_ys st)) i) as [[y0 y1]|] eqn:E1; [|discriminate]. destruct (nth_error (st_cells st) i) as [cs|] eqn:E2; [|discriminate].
    cbn in H. injection H as <-. pose proof (proj1 (intervals_nth _ _ _) E1) as (Y0 & Y1). cbn [fst snd] in *. exists y0, y1, cs. auto. }
  assert (Keep : to_table st = make_rows st).
  { unfold to_table. apply filter_all. intros r Hr. apply In_nth_error in Hr. destruct Hr as (i & Hr). destruct (Nth i r Hr) as (y0 & y1 & cs & Y0 & Y1 & Ec & ->).
    unfold row_truth. cbn [br_cells]. apply rect_bool_not_empty, row_bbox_proper.
    - intros b Hb. apply in_map_iff in Hb. destruct Hb as (ce & Eb & Hce). apply In_nth_error in Hce. destruct Hce as (j & Hj). assert (Hc : cell_at st i j ce) by (exists cs; auto).
      pose proof (Mc i j ce Hc) as M. rewrite Eb in M. destruct M as (_ & -> & _). split; [apply rround_valid, (Vc i j ce Hc)|apply rround_decimal].
    - assert (Hi : (i < nrows st)%nat) by (rewrite <- Lc; apply nth_error_Some; congruence). destruct (Full i Hi) as (j & ce & Hc & M & Em). pose proof Hc as (cs' & E1 & E2). rewrite Ec in E1. injection E1 as <-.
      pose proof (Mc i j ce Hc) as Mm. destruct (make_cell ce) as [b|] eqn:Eb; [|congruence]. exists b. destruct Mm as (_ & -> & _). split; [|exact Em]. rewrite <- Eb. apply in_map, (nth_error_In _ _ E2). }
  assert (Len : length (make_rows st) = nrows st) by (unfold make_rows; rewrite map_length, combine_length, intervals_length, Lc; unfold nrows; lia).
  rewrite Keep. split; [exact Len|]. split.
  - intros i r Hr. destruct (Nth i r Hr) as (y0 & y1 & cs & Y0 & Y1 & Ec & ->). cbn [br_cells br_height]. split; [rewrite map_length; apply Lr, (nth_error_In _ _ Ec)|]. split; [exists y0, y1; auto|].
    intros j ce Hc. pose proof Hc as (cs' & E1 & E2). rewrite Ec in E1. injection E1 as <-. exists (make_cell ce). split; [rewrite nth_error_map, E2; reflexivity|]. exact (Mc i j ce Hc).
  - unfold docx_ok. rewrite Len. assert (Hd : match make_rows st with r :: _ => length (br_cells r) | [] => 0%nat end = ncols st).
    { destruct (make_rows st) as [|r t] eqn:E; [cbn in Len; lia|]. destruct (Nth 0%nat r) as (y0 & y1 & cs & Y0 & Y1 & Ec & ->); [reflexivity|]. cbn [br_cells]. rewrite map_length. apply Lr, (nth_error_In _ _ Ec). }
    rewrite Hd. apply rows_fit_spec. intros i r Hr j o Ho. destruct (Nth i r Hr) as (y0 & y1 & cs & Y0 & Y1 & Ec & ->). cbn [br_cells] in Ho. rewrite nth_error_map in Ho. destruct (nth_error cs j) as [ce|] eqn:Ej; [|discriminate]. cbn in Ho. injection Ho as <-.
    assert (Hc : cell_at st i j ce) by (exists cs; auto). pose proof (Mc i j ce Hc) as M. destruct (A i j ce Hc) as (B1 & B2 & _). unfold cell_fits. destruct (make_cell ce) as [b|]; [|reflexivity]. destruct M as (_ & _ & -> & _). cbn [fst snd].
    apply andb_true_iff. split; apply Nat.leb_le; lia.
Qed.
Print Assumptions C56_block.

(* ------------------------------------------------------------------ *)
(** * Concrete tables *)
Definition frame : list shape := [hline 0 0 200; vline 0 0 100; vline 200 0 100; hline 100 0 200].
(** Two rows, two columns, the second row merged. *)
Definition ex_strokes : list shape := frame ++ [hline 50 0 200; vline 100 0 50].
Definition ex_table : structure := match parse_structure 2 6 ex_strokes [] with Parsed st => st | _ => mkStruct [] [] [] [] [] end.
Example ex_parsed : parse_structure 2 6 ex_strokes [] = Parsed ex_table /\ map Qred (st_xs ex_table) = [0; 100; 200] /\ map Qred (st_ys ex_table) = [0; 50; 100] /\
  map (map (fun ce => (ce_rows ce, ce_cols ce))) (st_cells ex_table) = [[(1, 1); (1, 1)]; [(1, 2); (1, 0)]]%nat.
Proof. repeat split; vm_compute; reflexivity. Qed.
Lemma ordered_check h d : forallb (fun p => sorted_from h (snd p)) d = true -> ordered_strokes h d.
Proof.
  intros H k v I. rewrite forallb_forall in H. specialize (H _ I). cbn [snd] in H. clear I. induction v as [|a t IH]; [constructor|]. cbn [sorted_from] in H. apply andb_true_iff in H. destruct H as (H1 & H2).
  constructor; [apply IH; exact H2|]. rewrite forallb_forall in H1. apply Forall_forall. intros b Hb. specialize (H1 b Hb). apply Qle_bool_iff in H1. unfold s_from in H1. destruct h; exact H1.
Qed.
Example ex_ordered : ordered_strokes true (st_h ex_table) /\ ordered_strokes false (st_v ex_table).
Proof. split; apply ordered_check; vm_compute; reflexivity. Qed.
Example ex_clear h : clear_lines h 2 (dir_part h ex_strokes).
Proof.
  intros a b d Ha Hb Hd. destruct h; unfold ex_strokes, frame in *; cbn in Ha, Hb, Hd;
  repeat (destruct Ha as [<-|Ha]; [repeat (destruct Hb as [<-|Hb]; [repeat (destruct Hd as [<-|Hd]; [unfold near; vm_compute; intros; try discriminate; auto|]); try destruct Hd|]); try destruct Hb|]); try destruct Ha.
Qed.
Example ex_spanned : spanned ex_strokes (mkRect 0 0 200 100).
Proof.
  unfold spanned. split; [exists (hline 0 0 200); split; [left; reflexivity|split; vm_compute; reflexivity]|]. split; [exists (hline 0 0 200); split; [left; reflexivity|split; vm_compute; reflexivity]|].
  split; [exists (vline 0 0 100); split; [right; left; reflexivity|split; [vm_compute; reflexivity|split; vm_compute; reflexivity]]|].
  split; [exists (vline 0 0 100); split; [right; left; reflexivity|split; [vm_compute; reflexivity|split; vm_compute; reflexivity]]|].
  split; intros s Hs; unfold ex_strokes, frame in Hs; cbn in Hs; repeat (destruct Hs as [<-|Hs]; [vm_compute; intros; try discriminate; split; discriminate|]); destruct Hs.
Qed.
Lemma drawn_check s : Qle_bool (rx0 (sh_bbox s)) (rx1 (sh_bbox s)) && Qle_bool (ry0 (sh_bbox s)) (ry1 (sh_bbox s)) && Qle_bool (sh_x0 s) (sh_x1 s) && Qle_bool (sh_y0 s) (sh_y1 s) = true -> (exists r, sh_bbox s = rround r) -> drawn s.
Proof. intros H (r & E). rewrite !andb_true_iff, !Qle_bool_iff in H. destruct H as (((A & B) & C) & D). split; [split; assumption|]. split; [rewrite E; apply rround_decimal|]. split; assumption. Qed.
Lemma stroke_bbox ax ay bx by_ w0 k t : exists r, sh_bbox (new_stroke ax ay bx by_ w0 k t) = rround r.
Proof. unfold new_stroke. destruct (_ || _); eexists; reflexivity. Qed.
Example ex_drawn s : In s ex_strokes -> drawn s /\ shape_bool s = true.
Proof.
  intros Hs. unfold ex_strokes, frame in Hs. cbn [app In] in Hs.
  repeat (destruct Hs as [<-|Hs]; [split; [apply drawn_check; [vm_compute; reflexivity|apply stroke_bbox]|vm_compute; reflexivity]|]); destruct Hs.
Qed.
Example ex_sides h s : In s (dir_part h ex_strokes) -> side0 h (mkRect 0 0 200 100) - 6 <= coord h s <= side1 h (mkRect 0 0 200 100) + 6.
Proof. intros Hs. destruct h; cbn in Hs; repeat (destruct Hs as [<-|Hs]; [vm_compute; split; discriminate|]); destruct Hs. Qed.
Definition ex_regions (p q : nat) : region := match p with O => (0, q, 1, 1)%nat | _ => (1, 0, 1, 2)%nat end.
Example ex_partition : partition (nrows ex_table) (ncols ex_table) ex_regions.
Proof.
  assert (N : nrows ex_table = 2%nat) by (vm_compute; reflexivity). assert (M : ncols ex_table = 2%nat) by (vm_compute; reflexivity). rewrite N, M. intros p q Hp Hq.
  destruct p as [|[|p]]; [| |lia]; (split; [cbn; lia|]); intros p' q' H; cbn in H; (split; [lia|split; [lia|]]).
  - assert (p' = 0%nat) by lia. assert (q' = q) by lia. subst. reflexivity.
  - assert (p' = 1%nat) by lia. subst. reflexivity.
Qed.

Example ex_borders i j : (i < nrows ex_table)%nat -> (j < ncols ex_table)%nat ->
  (left_border ex_table i j <-> reg_left (ex_regions i j) = j) /\ (top_border ex_table i j <-> reg_top (ex_regions i j) = i).
Proof.
  intros Hi Hj. destruct (borderb_ok 2 6 ex_strokes [] ex_table i j (proj1 ex_parsed) Hi Hj) as (-> & ->).
  change (nrows ex_table) with 2%nat in Hi. change (ncols ex_table) with 2%nat in Hj.
  destruct i as [|[|i]]; [| |lia]; (destruct j as [|[|j]]; [| |lia]); vm_compute; repeat split; intros; try reflexivity; discriminate.
Qed.
Example ex_full i : (i < nrows ex_table)%nat -> exists j ce, cell_at ex_table i j ce /\ is_merged ce = false /\ rect_empty (rround (ce_bbox ce)) = false.
Proof.
  intros Hi. change (nrows ex_table) with 2%nat in Hi. destruct i as [|[|i]]; [| |lia]; (exists 0%nat; eexists; split; [apply cell_at_nth; vm_compute; reflexivity|split; vm_compute; reflexivity]).
Qed.

(* ------------------------------------------------------------------ *)
(** * C55: the two-column page layout *)
(** A layout is chosen exactly when every element across the centre line is above or below
    all elements in the columns. *)
Theorem C55_when page elems : (forall e, In e elems -> proper e /\ rect_decimal e) -> (exists e, In e elems /\ in_column page e) ->
  (page_layout page elems <> None <-> forall e, In e elems -> spanning page e -> above_columns page elems e \/ below_columns page elems e).
Proof.
  intros H Ex. rewrite <- (span_free page elems H Ex). unfold page_layout. destruct (forallb _ _); split; intros; congruence.
Qed.
Print Assumptions C55_when.
(** It is then one row of two cells meeting at the centre line (to one decimal), and each
    column element lies inside the cell of its side. *)
Theorem C55_two_columns page elems : (forall e, In e elems -> proper e /\ rect_decimal e /\ Rect.covers page e) ->
  (exists e, In e elems /\ in_column page e /\ 21 # 5 < rx1 page - rx0 e) -> (exists e, In e elems /\ in_column page e /\ 21 # 5 < rx1 e - rx0 page) ->
  (forall e, In e elems -> spanning page e -> above_columns page elems e \/ below_columns page elems e) ->
  exists st ce0 ce1, page_layout page elems = Some (Parsed st) /\ st_cells st = [[ce0; ce1]] /\
    ce_rows ce0 = 1%nat /\ ce_cols ce0 = 1%nat /\ ce_rows ce1 = 1%nat /\ ce_cols ce1 = 1%nat /\
    rx1 (ce_bbox ce0) = round1 (center page) /\ rx0 (ce_bbox ce1) = round1 (center page) /\
    (forall e, In e elems -> in_left page e -> Rect.covers (ce_bbox ce0) e) /\ (forall e, In e elems -> in_right page e -> Rect.covers (ce_bbox ce1) e).
Proof.
  intros H (a & Ia & Ca & Wa) (b & Ib & Cb & Wb) F.
  assert (H' : forall e, In e elems -> proper e /\ rect_decimal e) by (intros e He; destruct (H e He) as (? & ? & _); auto).
  assert (E : page_layout page elems <> None) by (apply C55_when; [exact H'|exists a; auto|exact F]).
  unfold page_layout in *. destruct (forallb _ _) eqn:Fb; [|congruence]. set (l := column_elements page elems) in *.
  assert (N : l <> []) by (intros E0; assert (X : In a l) by (apply column_In; auto); rewrite E0 in X; destruct X).
  assert (Hl : forall e, In e l -> proper e /\ rect_decimal e) by (intros e He; apply H'; apply column_In in He; tauto).
  destruct (boxes_cover l N Hl) as (Pu & Du & Cv & Mn). cbv zeta in *. set (u := boxes_bbox l) in *.
  assert (Cp : Rect.covers page u) by (apply Mn; intros e He; apply column_In in He; destruct (H e (proj1 He)) as (_ & _ & X); exact X).
  unfold layout_strokes. cbv zeta. set (m0 := (rx0 page + rx0 u) / 2). set (m1 := (rx1 page + rx1 u) / 2). change (page_center page) with (center page).
  assert (E0 : m0 == (1 # 2) * (rx0 page + rx0 u)) by (unfold m0; field). assert (E1 : m1 == (1 # 2) * (rx1 page + rx1 u)) by (unfold m1; field). assert (EX : center page == (1 # 2) * (rx0 page + rx1 page)) by (unfold center; field).
  destruct (Cv a) as (A1 & _); [apply column_In; auto|]. destruct (Cv b) as (_ & _ & B1 & _); [apply column_In; auto|]. destruct Pu as (Pu1 & Pu2). destruct Cp as (Q1 & Q2 & Q3 & Q4).
  destruct (five_parsed m0 (center page) m1 (ry0 u - MAJOR_DIST) (ry1 u + MAJOR_DIST)) as (st & ce0 & ce1 & P & Sx & Sy & Sc & R0 & K0 & R1 & K1); [lra|lra|unfold MAJOR_DIST; lra|].
  unfold five in P. exists st, ce0, ce1. rewrite P. split; [reflexivity|]. split; [exact Sc|]. repeat (split; [assumption|]).
  destruct (C28_grid _ _ _ _ _ P) as (_ & _ & _ & _ & _ & _ & G).
  destruct (G 0%nat 0%nat ce0) as (_ & _ & X0 & X1 & Y0 & Y1); [exists [ce0; ce1]; rewrite Sc; split; reflexivity|].
  destruct (G 0%nat 1%nat ce1) as (_ & _ & X2 & X3 & Y2 & Y3); [exists [ce0; ce1]; rewrite Sc; split; reflexivity|].
  rewrite K0, K1, R0, R1, Sx, Sy in *. cbn [nth_error Nat.add] in *. injection X0 as X0. injection X1 as X1. injection Y0 as Y0. injection Y1 as Y1. injection X2 as X2. injection X3 as X3. injection Y2 as Y2. injection Y3 as Y3.
  split; [symmetry; exact X1|]. split; [symmetry; exact X2|].
  assert (Fx : forall x y, decimal 10 x -> x <= y -> x <= round1 y) by (intros x y D L; eapply Qle_trans; [|apply round_p_mono; exact L]; rewrite (round_p_fixed 10 x D); lra).
  assert (Fy : forall x y, decimal 10 x -> y <= x -> round1 y <= x) by (intros x y D L; eapply Qle_trans; [apply round_p_mono; exact L|]; rewrite (round_p_fixed 10 x D); lra).
  split; intros e He Le; (destruct (Cv e) as (V1 & V2 & V3 & V4); [apply column_In; split; [exact He|]; (left; exact Le) || (right; exact Le)|]); destruct (H e He) as (_ & (D1 & D2 & D3 & D4) & _);
    unfold Rect.covers; rewrite <- ?X0, <- ?X1, <- ?X2, <- ?X3, <- ?Y0, <- ?Y1, <- ?Y2, <- ?Y3; unfold in_left, in_right, MAJOR_DIST in *; (repeat split); (apply Fx || apply Fy); try assumption; try lra; [change (ry0 u - 5 <= ry0 e)|change (ry1 e <= ry1 u + 5)|change (ry0 u - 5 <= ry0 e)|change (ry1 e <= ry1 u + 5)]; lra.
Qed.
Print Assumptions C55_two_columns.
Definition ex_page : rect := mkRect 0 0 600 800.
Definition ex_elems : list rect := [mkRect 50 50 550 80; mkRect 50 100 280 700; mkRect 320 100 550 650].
Example ex_elems_ok : (forall e, In e ex_elems -> proper e /\ rect_decimal e /\ Rect.covers ex_page e) /\
  (exists e, In e ex_elems /\ in_column ex_page e /\ 21 # 5 < rx1 ex_page - rx0 e) /\ (exists e, In e ex_elems /\ in_column ex_page e /\ 21 # 5 < rx1 e - rx0 ex_page) /\
  (exists e, In e ex_elems /\ spanning ex_page e) /\ (forall e, In e ex_elems -> spanning ex_page e -> above_columns ex_page ex_elems e \/ below_columns ex_page ex_elems e).
Proof.
  assert (Dec : forall z : Z, decimal 10 (inject_Z z)) by (intros z; exists (z * 10)%Z; rewrite inject_Z_mult; field).
  split; [|split; [|split; [|split]]].
  - intros e He. repeat (destruct He as [<-|He]; [split; [split; cbn; lra|split; [repeat split; apply Dec|repeat split; cbn; lra]]|]). destruct He.
  - exists (mkRect 50 100 280 700). split; [right; left; reflexivity|]. split; [left; vm_compute; reflexivity|vm_compute; reflexivity].
  - exists (mkRect 50 100 280 700). split; [right; left; reflexivity|]. split; [left; vm_compute; reflexivity|vm_compute; reflexivity].
  - exists (mkRect 50 50 550 80). split; [left; reflexivity|]. split; vm_compute; discriminate.
  - intros e He Se. left. intros c Hc Cc. destruct He as [<-|[<-|[<-|[]]]].
    + destruct Hc as [<-|[<-|[<-|[]]]]; [|vm_compute; reflexivity|vm_compute; reflexivity]. exfalso. destruct Cc as [Cc|Cc]; vm_compute in Cc; discriminate.
    + exfalso. destruct Se as (S1 & S2). vm_compute in S2. apply S2. reflexivity.
    + exfalso. destruct Se as (S1 & S2). vm_compute in S1. apply S1. reflexivity.
Qed.

(* ------------------------------------------------------------------ *)
(** * Findings *)
Ltac find_cell := eexists; apply cell_at_nth; vm_compute; reflexivity.
Ltac parsed_as st := exists st; split; [vm_compute; reflexivity|].
Definition parse_or_empty (l : list shape) : structure := match parse_structure 2 6 l [] with Parsed st => st | _ => mkStruct [] [] [] [] [] end.
(** Averaged coordinates can collide with those of another row: its strokes are lost. *)
Definition drifting : list shape := [hline 0 0 200; hline (21 # 10) 0 200; hline 2 0 200; hline (11 # 10) 0 200; hline (22 # 10) 0 200].
Theorem C28_collision_refuted : exists l s, In s l /\ horizontal s = true /\ forall k v, In (k, v) (group_dir true 2 l) -> ~ In s v.
Proof.
  exists drifting, (hline (21 # 10) 0 200). split; [right; left; reflexivity|]. split; [vm_compute; reflexivity|]. intros k v H. vm_compute in H. destruct H as [H|[]]. injection H as <- <-.
  intros I. repeat (destruct I as [I|I]; [discriminate I|]). destruct I.
Qed.
Print Assumptions C28_collision_refuted.
(** Rows farther apart than the clearance can be merged through a row between them. *)
Theorem C28_drift_refuted : exists l a b k v, In a l /\ In b l /\ 2 < Qabs (coord true a - coord true b) /\ In (k, v) (group_dir true 2 l) /\ In a v /\ In b v.
Proof.
  exists [hline 0 0 200; hline 2 0 200; hline 3 0 200], (hline 0 0 200), (hline 3 0 200). do 2 eexists. split; [left; reflexivity|]. split; [right; right; left; reflexivity|].
  split; [vm_compute; reflexivity|]. split; [vm_compute; left; reflexivity|]. split; [left; vm_compute; reflexivity|right; right; left; vm_compute; reflexivity].
Qed.
Print Assumptions C28_drift_refuted.
(** A header rule above the columns: the strokes of the row where the columns start are
    replaced by an empty border. *)
Definition headed : list shape := [hline 0 0 200; hline 20 0 200; hline 40 0 200; vline 0 20 40; vline 100 20 40; vline 200 20 40].
Theorem C28_header_refuted : exists st, parse_structure 2 6 headed [] = Parsed st /\ In (hline 20 0 200) headed /\ (forall k v, In (k, v) (st_h st) -> ~ In (hline 20 0 200) v) /\
  (forall ce tp bt lf rg, cell_at st 1 0 ce -> ce_borders ce = Some (tp, bt, lf, rg) -> sh_width tp = 0).
Proof.
  parsed_as (parse_or_empty headed). split; [right; left; reflexivity|]. split.
  - intros k v H. vm_compute in H. repeat (destruct H as [H|H]; [injection H as <- <-; intros I; repeat (destruct I as [I|I]; [discriminate I|]); destruct I|]). destruct H.
  - intros ce tp bt lf rg H E. apply cell_at_nth in H. vm_compute in H. injection H as <-. cbn in E. injection E as <- <- <- <-. reflexivity.
Qed.
Print Assumptions C28_header_refuted.
(** Two rows of borders crossed by a single column line: IndexError. *)
Theorem C28_single_column_refuted : exists l, parse_structure 2 6 l [] = Failed.
Proof. exists [hline 0 0 2; hline 20 0 2; vline 1 0 20]. vm_compute. reflexivity. Qed.
Print Assumptions C28_single_column_refuted.
(** Strokes of an inner column not listed from top to bottom: a drawn border is missed and
    two separate cells are merged. *)
Definition unsorted : list shape := frame ++ [hline 50 0 200; vline 100 50 100; vline 100 0 50].
Theorem C29_unordered_refuted : exists st ce, parse_structure 2 6 unsorted [] = Parsed st /\ left_border st 0 1 /\ cell_at st 0 1 ce /\ ce_cols ce = 0%nat /\
  exists ce0, cell_at st 0 0 ce0 /\ ce_cols ce0 = 2%nat.
Proof.
  exists (parse_or_empty unsorted). assert (P : parse_structure 2 6 unsorted [] = Parsed (parse_or_empty unsorted)) by (vm_compute; reflexivity). eexists. split; [exact P|]. split.
  - apply (borderb_ok _ _ _ _ _ 0 1 P); [vm_compute; lia|vm_compute; lia|vm_compute; reflexivity].
  - split; [apply cell_at_nth; vm_compute; reflexivity|]. split; [reflexivity|]. eexists. split; [apply cell_at_nth; vm_compute; reflexivity|]. reflexivity.
Qed.
Print Assumptions C29_unordered_refuted.
(** Borders that do not bound rectangles: two cells take the same position... *)
Definition bent : list shape := frame ++ [hline 50 0 100; vline 100 0 50].
Theorem C30_overlap_refuted : exists st ce ce', parse_structure 2 6 bent [] = Parsed st /\ cell_at st 0 1 ce /\ cell_at st 1 0 ce' /\
  is_merged ce = false /\ is_merged ce' = false /\ takes ce 0 1 1 1 /\ takes ce' 1 0 1 1.
Proof.
  exists (parse_or_empty bent). do 2 eexists. split; [vm_compute; reflexivity|]. split; [apply cell_at_nth; vm_compute; reflexivity|]. split; [apply cell_at_nth; vm_compute; reflexivity|].
  split; [reflexivity|]. split; [reflexivity|]. split; vm_compute; lia.
Qed.
Print Assumptions C30_overlap_refuted.
(** ... or a position belongs to no cell, so its text is dropped. *)
Definition broken : list shape := frame ++ [hline 50 0 100; vline 100 50 100].
Theorem C30_lost_refuted : exists st, parse_structure 2 6 broken [] = Parsed st /\ (1 < nrows st)%nat /\ (1 < ncols st)%nat /\
  forall i j ce, cell_at st i j ce -> is_merged ce = false -> ~ takes ce i j 1 1.
Proof.
  parsed_as (parse_or_empty broken). split; [vm_compute; lia|]. split; [vm_compute; lia|]. intros i j ce H M T. apply cell_at_nth in H. vm_compute in H.
  destruct i as [|[|i]]; [| |destruct i; exact H]; (destruct j as [|[|j]]; [| |destruct j; discriminate H]); injection H as <-; vm_compute in M, T; try discriminate M; lia.
Qed.
Print Assumptions C30_lost_refuted.
(** A row whose cells are all merged upward is dropped from the block: the cells above
    reach beyond the docx table (IndexError)... *)
Definition dangling : list shape := frame ++ [hline 50 0 30; vline 100 0 100].
Theorem C56_dropped_row_refuted : exists st, parse_structure 2 6 dangling [] = Parsed st /\ nrows st = 2%nat /\ length (to_table st) = 1%nat /\ docx_ok (to_table st) = false.
Proof. parsed_as (parse_or_empty dangling). repeat split; vm_compute; reflexivity. Qed.
Print Assumptions C56_dropped_row_refuted.
(** ... or swallow the next row, which writes over the same docx cell. *)
Definition dangling2 : list shape := frame ++ [hline 40 0 30; hline 70 0 200; vline 100 0 100].
Theorem C56_shifted_row_refuted : exists st b b', parse_structure 2 6 dangling2 [] = Parsed st /\ docx_ok (to_table st) = true /\
  (exists r, nth_error (to_table st) 0 = Some r /\ nth_error (br_cells r) 0 = Some (Some b)) /\ (exists r, nth_error (to_table st) 1 = Some r /\ nth_error (br_cells r) 0 = Some (Some b')) /\
  bc_merged b = (2, 1)%nat /\ bc_merged b' = (1, 1)%nat.
Proof.
  exists (parse_or_empty dangling2). do 2 eexists. split; [vm_compute; reflexivity|]. split; [vm_compute; reflexivity|].
  split; [eexists; split; [vm_compute; reflexivity|vm_compute; reflexivity]|]. split; [eexists; split; [vm_compute; reflexivity|vm_compute; reflexivity]|]. split; reflexivity.
Qed.
Print Assumptions C56_shifted_row_refuted.

(** Without a column element a table is still built, around the top left corner of the
    page: here one line across the centre, far from it. *)
Theorem C55_no_columns_refuted : exists st y0 y1, page_layout ex_page [mkRect 50 50 550 80] = Some (Parsed st) /\ st_ys st = [y0; y1] /\ y0 == - (5) /\ y1 == 5 /\ nrows st = 1%nat /\ ncols st = 1%nat.
Proof. do 3 eexists. split; [vm_compute; reflexivity|]. split; [reflexivity|]. repeat split; vm_compute; reflexivity. Qed.
Print Assumptions C55_no_columns_refuted.
(** The cells reach 5 pt above the columns: a title line there lies between their top and
    bottom. *)
Theorem C55_title_refuted : exists elems st e ce, In e elems /\ spanning ex_page e /\ above_columns ex_page elems e /\
  page_layout ex_page elems = Some (Parsed st) /\ cell_at st 0 0 ce /\ ry0 (ce_bbox ce) < ry0 e /\ ry1 e < ry1 (ce_bbox ce).
Proof.
  exists [mkRect 50 96 550 99; mkRect 50 100 280 700; mkRect 320 100 550 650]. do 3 eexists. split; [left; reflexivity|]. split; [split; vm_compute; discriminate|]. split.
  - intros c Hc Cc. destruct Hc as [<-|[<-|[<-|[]]]]; [|vm_compute; reflexivity|vm_compute; reflexivity]. exfalso. destruct Cc as [Cc|Cc]; vm_compute in Cc; discriminate.
  - split; [vm_compute; reflexivity|]. split; [apply cell_at_nth; vm_compute; reflexivity|]. split; vm_compute; reflexivity.
Qed.
Print Assumptions C55_title_refuted.
