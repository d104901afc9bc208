(** C69: the cells of a table in Word. *)
From Verif Require Import WordSpec WordProof WordProof2 WordProof3.
From Verif Require Import GridSpec TableProof GridProof3 GridProps.
From Coq Require Import Lia Lqa.
Open Scope nat_scope.

Lemma state_shown {X} (newp : X) nr nc r src : partition nr nc r -> forall p q, p < nr -> q < nc ->
  shown_at (state newp nr nc r src (idx nc nr 0)) p q = Some (reg_top (r p q), reg_left (r p q)).
Proof.
  intros Part p. assert (D : forall p q, p < nr -> q < nc -> done nc r (idx nc nr 0) p q = true).
  { intros p0 q0 Hp Hq. unfold done. apply Nat.ltb_lt. pose proof (region_own nr nc r Part p0 q0 Hp Hq) as O. pose proof (region_fits nr nc r Part p0 q0 Hp Hq) as F. unfold idx. nia. }
  pose proof (state_ok newp nr nc r src Part (idx nc nr 0)) as OK. set (t := idx nc nr 0) in *.
  induction p as [|p IH]; intros q Hp Hq; cbn [shown_at]; unfold state; rewrite (over_fgrid nr nc _ _ _ _ _ OK Hp Hq).
  - pose proof (region_own nr nc r Part 0 q Hp Hq) as O.
    assert (EL : Lt nc r t 0 q = lf r 0 q) by (unfold Lt; rewrite D by assumption; reflexivity). rewrite EL.
    destruct (region_same nr nc r Part 0 q 0 (lf r 0 q) Hp Hq) as (_ & Hq2 & E); [lia|lia|].
    unfold mkt. rewrite D by assumption. apply same_parts in E. destruct E as (-> & -> & -> & ->).
    destruct (0 =? tp r 0 q) eqn:E2; [|apply Nat.eqb_neq in E2; lia]. apply Nat.eqb_eq in E2. cbn [t_vm]. fold (tp r 0 q) (lf r 0 q). rewrite <- E2. destruct (rw r 0 q =? 1); reflexivity.
  - pose proof (region_own nr nc r Part (S p) q Hp Hq) as O.
    assert (EL : Lt nc r t (S p) q = lf r (S p) q) by (unfold Lt; rewrite D by assumption; reflexivity). rewrite EL.
    destruct (region_same nr nc r Part (S p) q (S p) (lf r (S p) q) Hp Hq) as (_ & Hq2 & E); [lia|lia|].
    unfold mkt at 1. rewrite D by assumption. apply same_parts in E. destruct E as (-> & -> & -> & ->).
    fold (tp r (S p) q) (lf r (S p) q).
    destruct (S p =? tp r (S p) q) eqn:E2.
    + apply Nat.eqb_eq in E2. cbn [t_vm]. rewrite <- E2. destruct (rw r (S p) q =? 1); reflexivity.
    + apply Nat.eqb_neq in E2. cbn [t_vm].
      destruct (region_same nr nc r Part (S p) q p (lf r (S p) q) Hp Hq) as (_ & _ & E); [lia|lia|].
      change (fgrid nr nc (Lt nc r t) (mkt newp nc r src t)) with (state newp nr nc r src t).
      rewrite IH by lia. apply same_parts in E. destruct E as (E3 & E4 & _). unfold tp, lf in *. rewrite E3, E4. reflexivity.
Qed.
(** For any division of the grid into rectangles, whatever is in the cells: the table is written, and Word
    shows exactly these rectangles as cells. *)
Theorem C69_regions X (newp : X) noruns nr nc r src :
  noruns newp = true -> 0 < nr -> partition nr nc r -> fits_regions nr nc r src -> (forall h cells, In (h, cells) src -> (0 <= h)%Q) ->
  exists g, word_table newp noruns src = Some (map (fun x => pt (fst x)) src, g) /\ List.length g = nr /\
    forall p q, p < nr -> q < nc -> shown_at g p q = Some (reg_top (r p q), reg_left (r p q)).
Proof.
  intros New Hn Part Fits Hh. exists (state newp nr nc r src (idx nc nr 0)). split; [apply table_written; assumption|]. split.
  - unfold state, fgrid. rewrite map_length, seq_length. reflexivity.
  - apply state_shown, Part.
Qed.
Print Assumptions C69_regions.

(** The cell shown in a rectangle has what was written for it: contents, borders, shading, direction of the text and width;
    further rows of the rectangle have no contents and the same borders. *)
Theorem C69_cells X (newp : X) noruns nr nc r src hs g :
  noruns newp = true -> 0 < nr -> partition nr nc r -> fits_regions nr nc r src -> (forall h cells, In (h, cells) src -> (0 <= h)%Q) ->
  word_table newp noruns src = Some (hs, g) ->
  forall p q i j m n, p < nr -> q < nc -> r p q = (i, j, m, n) ->
  exists b c t, cell_of src i j = Some c /\ wc_info c = Some b /\ over g p q = Some (j, t) /\ t_span t = n /\
    drawn_edges b (t_pr t) /\
    if p =? i then
      t_vm t <> Continue /\ t_body t = (match wc_fill c with Some items => items | None => [newp] end) /\
      pr_shd (t_pr t) = (match bc_bg b with Some z => [z] | None => [] end) /\ (pr_vert (t_pr t) = if wc_vert c then 1 else 0) /\
      pr_width (t_pr t) = Some (rx1 (bc_bbox b) - rx0 (bc_bbox b))%Q /\ 1 <= pr_mar (t_pr t)
    else t_vm t = Continue /\ t_body t = [newp] /\ pr_shd (t_pr t) = [].
Proof.
  intros New Hn Part Fits Hh E p q i j m n Hp Hq Er.
  rewrite (table_written newp noruns New nr nc r src Part Fits Hh Hn) in E. injection E as _ <-.
  pose proof (state_ok newp nr nc r src Part (idx nc nr 0)) as OK. set (t := idx nc nr 0) in *.
  assert (D : forall p q, p < nr -> q < nc -> done nc r t p q = true).
  { intros p0 q0 Hp0 Hq0. unfold done. apply Nat.ltb_lt. pose proof (region_own nr nc r Part p0 q0 Hp0 Hq0) as O. pose proof (region_fits nr nc r Part p0 q0 Hp0 Hq0) as F. unfold t, idx. nia. }
  pose proof (region_own nr nc r Part p q Hp Hq) as O.
  assert (Q : tp r p q = i /\ lf r p q = j /\ rw r p q = m /\ cl r p q = n) by (unfold tp, lf, rw, cl; rewrite Er; auto).
  destruct Q as (Q1 & Q2 & Q3 & Q4). rewrite Q1, Q2, Q3, Q4 in O.
  destruct (region_same nr nc r Part p q p j Hp Hq) as (_ & Hj & Ej); [rewrite Q1, Q3; lia|rewrite Q2, Q4; lia|].
  destruct (region_same nr nc r Part p q i j Hp Hq) as (Hi & _ & Ei); [rewrite Q1, Q3; lia|rewrite Q2, Q4; lia|].
  pose proof (ce_spec nr nc r src Fits i j Hi Hj) as C.
  assert (Ec : exists c, cell_of src i j = Some c).
  { unfold cell_of. destruct Fits as (Hl & Hf). destruct (nth_error src i) as [[h cells]|] eqn:E1; [|apply nth_error_None in E1; lia].
    destruct (Hf i h cells E1) as (Hc & _). destruct (nth_error cells j) as [c|] eqn:E2; [exists c; reflexivity|apply nth_error_None in E2; lia]. }
  destruct Ec as (c & Ec). assert (Ece : ce src i j = c) by (unfold ce; rewrite Ec; reflexivity).
  rewrite Ece in C. destruct (wc_info c) as [b|] eqn:Eb.
  2:{ exfalso. destruct C as (C & _). apply C. unfold tp, lf. rewrite Ei, Er. reflexivity. }
  exists b, c, (mkt newp nc r src t p j). split; [exact Ec|]. split; [exact Eb|]. split.
  { unfold state. rewrite (over_fgrid nr nc _ _ _ _ _ OK Hp Hq). unfold Lt. rewrite D by assumption. rewrite Q2. reflexivity. }
  unfold mkt. rewrite D by assumption. apply same_parts in Ej. destruct Ej as (-> & -> & -> & ->). rewrite Q1, Q2, Q3, Q4.
  unfold main_pr, cont_pr, body, e_top, e_end, e_bottom, e_start, e_shd, e_width. rewrite Ece, Eb.
  assert (De : forall pr, (pr_top pr, pr_end pr, pr_bottom pr, pr_start pr) = wc_edges c -> drawn_edges b pr).
  { intros pr Epr. unfold wc_edges in Epr. rewrite Eb in Epr. unfold drawn_edges. destruct (bc_widths b) as [[[w1 w2] w3] w4], (bc_colors b) as [[[c1 c2] c3] c4]. injection Epr as -> -> -> ->.
    unfold drawn_edge, edge. repeat split; match goal with |- context [qeq ?w 0] => destruct (qeq w 0) end; solve [reflexivity | eexists; split; [reflexivity|reflexivity]]. }
  destruct (wc_edges c) as [[[e1 e2] e3] e4]. destruct (p =? i) eqn:Ep.
  - apply Nat.eqb_eq in Ep. subst p. cbn [t_span t_pr t_vm t_body pr_top pr_end pr_bottom pr_start pr_shd pr_mar pr_vert pr_width fst snd].
    split; [reflexivity|]. split; [apply De; reflexivity|]. split; [destruct (m =? 1); discriminate|]. split; [reflexivity|]. split; [reflexivity|]. split; [reflexivity|]. split; [reflexivity|].
    unfold cnt. assert (In (idx nc i j) (filter (mine nc r i j) (seq 0 t))).
    { apply filter_In. split; [apply in_seq; unfold t, idx; nia|]. rewrite mine_at by exact Hj. unfold tp, lf. rewrite Ei, Er. cbn. rewrite !Nat.eqb_refl. reflexivity. }
    destruct (filter (mine nc r i j) (seq 0 t)); [contradiction|cbn; lia].
  - cbn [t_span t_pr t_vm t_body pr_shd fst snd]. split; [reflexivity|]. split; [apply De; reflexivity|]. auto.
Qed.
Print Assumptions C69_cells.

(** Read in the order of the file, the contents are those of the cells, row by row; [f]: what to read in a block item. *)
Theorem C69_contents X Y (newp : X) noruns (f : X -> list Y) nr nc r src hs g :
  noruns newp = true -> f newp = [] -> 0 < nr -> partition nr nc r -> fits_regions nr nc r src -> (forall h cells, In (h, cells) src -> (0 <= h)%Q) ->
  word_table newp noruns src = Some (hs, g) ->
  flat_map (flat_map (fun t => flat_map f (t_body t))) g =
  flat_map (fun row => flat_map (fun c => match wc_fill c with Some items => flat_map f items | None => [] end) (snd row)) src.
Proof.
  intros New Fn Hn Part Fits Hh E.
  rewrite (table_written newp noruns New nr nc r src Part Fits Hh Hn) in E. injection E as _ <-.
  set (t := idx nc nr 0) in *.
  assert (D : forall p q, p < nr -> q < nc -> done nc r t p q = true).
  { intros p0 q0 Hp0 Hq0. unfold done. apply Nat.ltb_lt. pose proof (region_own nr nc r Part p0 q0 Hp0 Hq0) as O. pose proof (region_fits nr nc r Part p0 q0 Hp0 Hq0) as F. unfold t, idx. nia. }
  assert (Cell : forall p q, p < nr -> q < nc ->
    flat_map (fun x => flat_map f (t_body x)) (if Lt nc r t p q =? q then [mkt newp nc r src t p q] else []) =
    match wc_fill (ce src p q) with Some items => flat_map f items | None => [] end).
  { intros p q Hp Hq. pose proof (ce_spec nr nc r src Fits p q Hp Hq) as C. unfold Lt, mkt. rewrite D by assumption.
    destruct (wc_info (ce src p q)) as [b|] eqn:Eb.
    - assert (T : tp r p q = p /\ lf r p q = q) by (unfold tp, lf; rewrite C; auto). destruct T as (T1 & T2). rewrite T2, !Nat.eqb_refl, T1, Nat.eqb_refl.
      cbn [flat_map t_body]. rewrite app_nil_r. unfold body. destruct (wc_fill (ce src p q)); [reflexivity|]. cbn. rewrite Fn. reflexivity.
    - destruct C as (N & _ & ->). destruct (lf r p q =? q) eqn:E2; [|reflexivity]. apply Nat.eqb_eq in E2.
      destruct (p =? tp r p q) eqn:E1; [apply Nat.eqb_eq in E1; exfalso; apply N; rewrite <- E1, E2; reflexivity|]. cbn. rewrite Fn. reflexivity. }
  assert (Row : forall p k s, p < nr -> s + k <= nc -> flat_map (fun x => flat_map f (t_body x)) (pieces X (Lt nc r t p) (mkt newp nc r src t p) s k) =
    flat_map (fun q => match wc_fill (ce src p q) with Some items => flat_map f items | None => [] end) (seq s k)).
  { intros p k. induction k as [|k IH]; intros s Hp Hk; [reflexivity|]. unfold pieces. cbn [seq flat_map]. rewrite flat_map_app. rewrite Cell by lia. f_equal. apply IH; lia. }
  assert (All : forall k s, s + k <= nr -> flat_map (flat_map (fun x => flat_map f (t_body x))) (map (fun p => pieces X (Lt nc r t p) (mkt newp nc r src t p) 0 nc) (seq s k)) =
    flat_map (fun p => flat_map (fun q => match wc_fill (ce src p q) with Some items => flat_map f items | None => [] end) (seq 0 nc)) (seq s k)).
  { induction k as [|k IH]; intros s Hk; [reflexivity|]. cbn [seq map flat_map]. rewrite Row by lia. f_equal. apply IH. lia. }
  unfold state, fgrid. rewrite (All nr 0) by lia. clear Cell Row All.
  assert (Idx : forall A (l : list A) (h : nat -> list Y) (k : A -> list Y) s, (forall i x, nth_error l i = Some x -> h (s + i) = k x) -> flat_map h (seq s (List.length l)) = flat_map k l).
  { induction l as [|x l IH]; intros h k s H; [reflexivity|]. cbn [List.length seq flat_map]. f_equal; [rewrite <- (H 0 x eq_refl), Nat.add_0_r; reflexivity|].
    apply IH. intros i y Hi. rewrite <- (H (S i) y Hi). f_equal. lia. }
  destruct Fits as (Hl & Hf). rewrite <- Hl. apply Idx. intros i [h cells] Hi. cbn [snd]. destruct (Hf i h cells Hi) as (Hc & _). rewrite <- Hc. apply Idx.
  intros j c Hj. rewrite !Nat.add_0_l. unfold ce, cell_of. rewrite Hi, Hj. reflexivity.
Qed.
Print Assumptions C69_contents.

(** A table drawn with lines that cut its frame into rectangles (C68): Word shows these rectangles. *)
Theorem C69_drawn X (newp : X) noruns c w d g strokes fills r st src :
  noruns newp = true -> (0 <= c -> 0 <= w -> c + 1 <= d -> 7 <= d -> grid_ok d g -> drawn_grid g strokes -> tiles g r ->
  parse_structure c w strokes fills = Parsed st -> map (fun x => (fst x, map wc_info (snd x))) src = map (fun x => (br_height x, br_cells x)) (to_table st) ->
  (forall h cells k, In (h, cells) src -> In k cells -> wc_info k = None -> wc_vert k = false /\ wc_fill k = None) ->
  exists hs t, word_table newp noruns src = Some (hs, t) /\ List.length t = g_rows g /\
    forall p q, (p < g_rows g)%nat -> (q < g_cols g)%nat -> shown_at t p q = Some (reg_top (r p q), reg_left (r p q)))%Q.
Proof.
  intros New Hc Hw Hd D7 Ok D T P Hs Hn.
  destruct (C68_tiled c w d g strokes fills r Hc Hw Hd D7 Ok D T) as (st' & rows & P' & Er & Lr & Cl).
  rewrite P in P'. injection P' as <-.
  assert (Len : List.length src = g_rows g).
  { rewrite <- Lr, Er, map_length. rewrite <- (map_length (fun x => (fst x, map wc_info (snd x))) src), Hs, map_length. reflexivity. }
  assert (At : forall i h cells, nth_error src i = Some (h, cells) -> exists b, nth_error (to_table st) i = Some b /\ h = br_height b /\ map wc_info cells = br_cells b).
  { intros i h cells E. apply (map_nth_error (fun x => (fst x, map wc_info (snd x)))) in E. rewrite Hs in E. cbn [fst snd] in E.
    destruct (nth_error (to_table st) i) as [b|] eqn:Eb; [|rewrite nth_error_map, Eb in E; discriminate].
    rewrite nth_error_map, Eb in E. cbn in E. injection E as E1 E2. exists b. auto. }
  assert (Hrows : (0 < g_rows g)%nat) by (destruct Ok as (_ & H & _); lia).
  destruct (C69_regions X newp noruns (g_rows g) (g_cols g) r src New Hrows (proj1 T)) as (t & E1 & E2 & E3).
  - split; [exact Len|]. intros i h cells E. destruct (At i h cells E) as (b & Eb & _ & Ec).
    assert (Hi : (i < g_rows g)%nat) by (rewrite <- Len; apply nth_error_Some; congruence).
    assert (Ei : nth_error rows i = Some (br_cells b)) by (rewrite Er; apply map_nth_error; exact Eb).
    assert (Lc : List.length cells = g_cols g).
    { destruct (Cl i 0%nat Hi) as (row & o & A1 & A2 & _); [destruct Ok as (H & _); lia|]. rewrite Ei in A1. injection A1 as <-. rewrite <- A2, <- Ec, map_length. reflexivity. }
    split; [exact Lc|]. intros j k Ek. assert (Hj : (j < g_cols g)%nat) by (rewrite <- Lc; apply nth_error_Some; congruence).
    destruct (Cl i j Hi Hj) as (row & o & A1 & A2 & A3 & A4). rewrite Ei in A1. injection A1 as <-.
    rewrite <- Ec in A3. rewrite nth_error_map, Ek in A3. cbn in A3. injection A3 as <-.
    destruct (r i j) as [[[i0 j0] m] n] eqn:Erj. destruct (wc_info k) as [bc|] eqn:Ebc.
    + destruct A4 as (A5 & A6 & _). injection A5 as -> ->. rewrite A6. reflexivity.
    + cbn [reg_top reg_left]. split; [exact A4|]. apply (Hn h cells k); [apply nth_error_In in E; exact E|apply nth_error_In in Ek; exact Ek|exact Ebc].
  - intros h cells Hin. apply In_nth_error in Hin. destruct Hin as (i & E). destruct (At i h cells E) as (b & Eb & -> & _).
    apply nth_error_In in Eb. unfold to_table in Eb. apply filter_In in Eb. destruct Eb as (Eb & _). unfold make_rows in Eb. apply in_map_iff in Eb.
    destruct Eb as ([[y0 y1] cs] & <- & Hin). cbn [br_height fst snd]. apply in_combine_l in Hin.
    destruct D as (hs & vs & PS & Lh & Lv & Rh & Rv). destruct (grid_parsed c w d g strokes fills hs vs Hc Hw Hd Ok PS Lh Lv Rh Rv) as (st' & P' & _ & _ & _ & Ys).
    rewrite P in P'. injection P' as <-. rewrite Ys in Hin.
    apply In_nth_error in Hin. destruct Hin as (k & Hk). apply intervals_nth in Hk. cbn [fst snd] in Hk. destruct Hk as (K0 & K1).
    rewrite nth_error_map in K0, K1. destruct (nth_error (g_ys g) k) as [v0|] eqn:V0; [|discriminate]. destruct (nth_error (g_ys g) (S k)) as [v1|] eqn:V1; [|discriminate].
    cbn in K0, K1. injection K0 as <-. injection K1 as <-.
    assert (Hk : (k < g_rows g)%nat) by (unfold g_rows; assert (S k < List.length (g_ys g))%nat by (apply nth_error_Some; congruence); lia).
    destruct Ok as (_ & _ & _ & _ & Gy & _). specialize (Gy k Hk). unfold gy in Gy. rewrite (nth_error_nth _ _ _ V0), (nth_error_nth _ _ _ V1) in Gy.
    assert (M : (round1 v0 <= round1 v1)%Q) by (apply round_p_mono; lra). lra.
  - exists (map (fun x => pt (fst x)) src), t. auto.
Qed.
Print Assumptions C69_drawn.

(* ------------------------------------------------------------------ *)
(** * Concrete tables: text k is [Some k], an empty paragraph [None] *)
Definition wd_cell (m n k : nat) : wcell (option nat) := mkW (Some (mkBcell (mkRect 0 0 10 10) (Some 255%Z) (0, 0, 0, 0)%Z (1, 1, 1, 1)%Q (m, n))) false (Some [Some k]).
Definition wd_none : wcell (option nat) := mkW None false None.
Definition wd_empty (x : option nat) : bool := match x with None => true | Some _ => false end.
(** Two rows and three columns: a cell over two rows on the left, one over two columns on its right. *)
Definition wd_src : list (Q * list (wcell (option nat))) :=
  [(10%Q, [wd_cell 2 1 1; wd_cell 1 2 2; wd_none]); (10%Q, [wd_none; wd_cell 1 1 3; wd_cell 1 1 4])].
Definition wd_reg (p q : nat) : region :=
  match p, q with
  | _, 0 => (0, 0, 2, 1)
  | 0, _ => (0, 1, 1, 2)
  | _, _ => (p, q, 1, 1)
  end.
Lemma wd_part : partition 2 3 wd_reg.
Proof.
  intros p q Hp Hq. destruct p as [|[|p]]; [| |lia]; (destruct q as [|[|[|q]]]; [| | |lia]); (split; [cbn; lia|]); intros p' q' H; cbn in H; (split; [lia|]); (split; [lia|]);
    destruct p' as [|[|p']]; try lia; destruct q' as [|[|[|q']]]; try lia; reflexivity.
Qed.
Lemma wd_fits : fits_regions 2 3 wd_reg wd_src.
Proof.
  split; [reflexivity|]. intros i h cells E. destruct i as [|[|i]]; [| |destruct i; discriminate E]; injection E as <- <-; (split; [reflexivity|]);
    intros j c E; destruct j as [|[|[|j]]]; try (destruct j; discriminate E); injection E as <-; try reflexivity; (split; [discriminate|]); split; reflexivity.
Qed.
Example C69_nonvacuous : exists g, word_table None wd_empty wd_src = Some ([127000; 127000]%Z, g) /\
  map (map (fun t => (t_span t, t_vm t, t_body t))) g = [[(1, Restart, [Some 1]); (2, Single, [Some 2])]; [(1, Continue, [None]); (1, Single, [Some 3]); (1, Single, [Some 4])]] /\
  (forall p q, p < 2 -> q < 3 -> shown_at g p q = Some (reg_top (wd_reg p q), reg_left (wd_reg p q))).
Proof.
  destruct (C69_regions (option nat) None wd_empty 2 3 wd_reg wd_src eq_refl ltac:(lia) wd_part wd_fits) as (g & E & _ & S).
  - intros h cells [H|[H|[]]]; injection H as <- _; discriminate.
  - exists g. split; [exact E|]. split; [|exact S]. vm_compute in E. injection E as <-. reflexivity.
Qed.
(** The margins of a merged cell are written once for each place it covers (w:tcPr allows one w:tcMar). *)
Theorem C69_margins_refuted : exists g t, word_table None wd_empty wd_src = Some ([127000; 127000]%Z, g) /\ over g 0 0 = Some (0, t) /\ pr_mar (t_pr t) = 2.
Proof. do 2 eexists. split; [vm_compute; reflexivity|]. split; vm_compute; reflexivity. Qed.
Print Assumptions C69_margins_refuted.
(** The table of C68_corners_refuted, whose cells overlap, with texts 1, 2, 3 in its cells: Word shows a single cell and text 3,
    written into a continued cell, is not shown. *)
Definition wd_fill (o : option bcell) (k : nat) : wcell (option nat) := mkW o false (option_map (fun _ => [Some k]) o).
Definition wd_rows (l : list (option bcell)) : list (Q * list (wcell (option nat))) :=
  match l with
  | [a; b; c; d; e; f] => [(10%Q, [wd_fill a 1; wd_fill b 0; wd_fill c 2]); (10%Q, [wd_fill d 3; wd_fill e 0; wd_fill f 0])]
  | _ => []
  end.
Theorem C69_overlap_refuted : exists w t g x, LayoutModel.lattice (fun l => l) LayoutProps.ly_set (gr_world gr_corners) (gr_all gr_corners) = LayoutModel.Ok (w, [t]) /\
  word_table None wd_empty (wd_rows (snd t)) = Some ([127000; 127000]%Z, g) /\
  (forall p q, p < 2 -> q < 3 -> shown_at g p q = Some (0, 0)) /\ over g 1 0 = Some (0, x) /\ t_vm x = Continue /\ t_body x = [Some 3].
Proof.
  do 4 eexists. split; [vm_compute; reflexivity|]. split; [vm_compute; reflexivity|]. split.
  - intros p q Hp Hq. destruct p as [|[|p]]; [| |lia]; (destruct q as [|[|[|q]]]; [| | |lia]); vm_compute; reflexivity.
  - split; [vm_compute; reflexivity|]. split; reflexivity.
Qed.
Print Assumptions C69_overlap_refuted.
(** The drawn table of C68_nonvacuous, with a text in every cell. *)
Definition wd_of (st : structure) : list (Q * list (wcell (option nat))) := map (fun x => (br_height x, map (fun o => wd_fill o 7) (br_cells x))) (to_table st).
Lemma wd_of_info st : map (fun x => (fst x, map wc_info (snd x))) (wd_of st) = map (fun x => (br_height x, br_cells x)) (to_table st).
Proof. unfold wd_of. rewrite map_map. apply map_ext. intro x. cbn [fst snd]. rewrite map_map. cbn [wd_fill wc_info]. rewrite map_id. reflexivity. Qed.
Lemma wd_of_none st h cells k : In (h, cells) (wd_of st) -> In k cells -> wc_info k = None -> wc_vert k = false /\ wc_fill k = None.
Proof.
  intros Hin Hk Hn. unfold wd_of in Hin. apply in_map_iff in Hin. destruct Hin as (x & E & _). injection E as _ <-. apply in_map_iff in Hk. destruct Hk as (o & <- & _).
  cbn [wd_fill wc_info] in Hn. subst o. split; reflexivity.
Qed.
Lemma wd_drawn g r strokes fills : grid_ok 15 g -> drawn_grid g strokes -> tiles g r ->
  exists st hs t, parse_structure 2 6 strokes fills = Parsed st /\ word_table None wd_empty (wd_of st) = Some (hs, t) /\
  (forall p q, p < g_rows g -> q < g_cols g -> shown_at t p q = Some (reg_top (r p q), reg_left (r p q))).
Proof.
  intros Ok D T. assert (A : (0 <= 2 /\ 0 <= 6 /\ 2 + 1 <= 15 /\ 7 <= 15)%Q) by (repeat split; discriminate). destruct A as (A1 & A2 & A3 & A4).
  destruct (C68_tiled 2 6 15 g strokes fills r A1 A2 A3 A4 Ok D T) as (st & _ & P & _). exists st.
  destruct (C69_drawn (option nat) None wd_empty 2 6 15 g strokes fills r st (wd_of st) eq_refl A1 A2 A3 A4 Ok D T P (wd_of_info st) (wd_of_none st)) as (hs & t & E & _ & S).
  exists hs, t. split; [exact P|]. split; [exact E|exact S].
Qed.
Example C69_drawn_nonvacuous : exists st hs t, parse_structure 2 6 (gr_lines gr_drawn) [] = Parsed st /\ word_table None wd_empty (wd_of st) = Some (hs, t) /\
  (forall p q, p < g_rows gr_grid -> q < g_cols gr_grid -> shown_at t p q = Some (reg_top (gr_tiles p q), reg_left (gr_tiles p q))).
Proof. destruct C68_nonvacuous as (Ok & _ & T & _ & D & _). exact (wd_drawn gr_grid gr_tiles (gr_lines gr_drawn) [] Ok D T). Qed.
