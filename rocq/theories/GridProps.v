(** C68: a table drawn with lines is recognised with its grid, its merged cells, its borders and its text. *)
From Verif Require Import GeomModel ShapeModel TableModel InterModel GridSpec GridProof GridProof2 GridProof3 GridProof4 GridProof5 GridProof6 GridProof7 GridProof8.
From Verif Require Import LayoutSpec LayoutModel.
From Verif Require LayoutProps TableProof.
From Coq Require Import List Permutation Lia Lqa.
Import ListNotations.
Open Scope Q_scope.

(* ------------------------------------------------------------------ *)
(** * Structure of the table *)
(** Strokes drawing a closed frame with lines between, in any order: the table has a row (column) for
    each space between neighbouring lines, each cell reaches up to the next lines drawn, and takes as
    many rows and columns. *)
Theorem C68_structure c w d g strokes fills : 0 <= c -> 0 <= w -> c + 1 <= d -> grid_ok d g -> drawn_grid g strokes -> rows_start g ->
  exists st, parse_structure c w strokes fills = Parsed st /\ st_xs st = map round1 (g_xs g) /\ st_ys st = map round1 (g_ys g) /\ rows_as_drawn g (map br_cells (to_table st)).
Proof.
  intros Hc Hw Hd Ok (hs & vs & PS & Lh & Lv & Rh & Rv) RS.
  destruct (grid_parsed c w d g strokes fills hs vs Hc Hw Hd Ok PS Lh Lv Rh Rv) as (st & P & _ & _ & X & Y). exists st. split; [exact P|]. split; [exact X|]. split; [exact Y|].
  exact (grid_rows c w d g strokes fills hs vs Hc Hw Hd Ok PS Lh Lv Rh Rv st P RS).
Qed.
Print Assumptions C68_structure.
(** Lines at least 7 points apart: a cell with all four sides drawn has these lines as borders, each
    with its width and its colour. *)
Theorem C68_borders c w d g strokes fills st : 0 <= c -> 0 <= w -> c + 1 <= d -> 7 <= d -> grid_ok d g -> drawn_grid g strokes -> rows_start g ->
  parse_structure c w strokes fills = Parsed st -> borders_as_drawn g strokes (map br_cells (to_table st)).
Proof.
  intros Hc Hw Hd D7 Ok (hs & vs & PS & Lh & Lv & Rh & Rv) RS P.
  exact (grid_borders c w d g strokes fills hs vs Hc Hw Hd Ok PS Lh Lv Rh Rv D7 st P RS).
Qed.
Print Assumptions C68_borders.
(** Lines cutting the frame into rectangles, whichever: the cells are these rectangles, each at its
    place, with its extent and its borders. *)
Theorem C68_tiled c w d g strokes fills r : 0 <= c -> 0 <= w -> c + 1 <= d -> 7 <= d -> grid_ok d g -> drawn_grid g strokes -> tiles g r ->
  exists st rows, parse_structure c w strokes fills = Parsed st /\ rows = map br_cells (to_table st) /\ length rows = g_rows g /\
    (forall i j, (i < g_rows g)%nat -> (j < g_cols g)%nat -> exists row o, nth_error rows i = Some row /\ length row = g_cols g /\ nth_error row j = Some o /\
      let '(i0, j0, m, n) := r i j in
      match o with
      | None => (i0, j0) <> (i, j)
      | Some b => (i0, j0) = (i, j) /\ bc_merged b = (m, n) /\ bc_bbox b = place g i j m n /\ bc_widths b = (g_width g, g_width g, g_width g, g_width g) /\
          exists tp rg bt lf, In tp strokes /\ In rg strokes /\ In bt strokes /\ In lf strokes /\
            h_rule g i tp /\ v_rule g (j + n) rg /\ h_rule g (i + m) bt /\ v_rule g j lf /\ bc_colors b = (sh_color tp, sh_color rg, sh_color bt, sh_color lf)
      end).
Proof.
  intros Hc Hw Hd D7 Ok D T. pose proof (tile_starts d g r Ok T) as RS.
  destruct (C68_structure c w d g strokes fills Hc Hw Hd Ok D RS) as (st & P & _ & _ & RD). pose proof (C68_borders c w d g strokes fills st Hc Hw Hd D7 Ok D RS P) as B.
  exists st, (map br_cells (to_table st)). split; [exact P|]. split; [reflexivity|]. set (rows := map br_cells (to_table st)) in *. destruct RD as (L & RR). split; [exact L|].
  intros i j Hi Hj. destruct (nth_error rows i) as [row|] eqn:Er; [|apply nth_error_None in Er; lia]. destruct (RR i row Er) as (Lr & Rc).
  destruct (nth_error row j) as [o|] eqn:Eo; [|apply nth_error_None in Eo; lia]. exists row, o. split; [reflexivity|]. split; [exact Lr|]. split; [exact Eo|].
  destruct (Rc j o Eo) as (m & n & Ext & M). destruct o as [b|].
  - destruct M as (Pm & Pn & Bb & Mb). rewrite (extent_tile g r T i j m n Hi Hj Ext Pm Pn). split; [reflexivity|]. split; [exact Mb|]. split; [exact Bb|].
    apply (B i j row b m n Er Eo Mb). apply (tile_sides d g r Ok T i j i j m n Hi Hj). apply (extent_tile g r T); assumption.
  - destruct (r i j) as [[[i0 j0] m0] n0] eqn:E. intros X. injection X as -> ->. destruct (tile_extent g r T i j i j m0 n0 Hi Hj E) as ((E1 & E2) & _ & _ & Q1 & Q2 & _). destruct Ext as (F1 & F2).
    rewrite (TableProof.run_length_fun _ _ _ _ _ F1 E1), (TableProof.run_length_fun _ _ _ _ _ F2 E2) in M. lia.
Qed.
Print Assumptions C68_tiled.

(* ------------------------------------------------------------------ *)
(** * Finding the table on a page *)
(** The strokes of the page are such a table, its horizontal lines all starting at the left side of
    the frame: it is found as one table, the box being the frame, all strokes are borders, and nothing else
    about the shapes changes - whatever order the strokes are in, whatever order sets are walked in. *)
Theorem C68_found order set_ d g w ss : (forall l, Permutation l (order l)) -> 0 < connected set_ -> 0 <= clearance set_ -> 0 <= max_width set_ ->
  clearance set_ + 1 <= d -> g_width g + 2 * connected set_ + (1 # 10) <= d -> grid_ok d g -> rooted g -> rows_start g ->
  drawn_grid g (shapes_at w (ls_strokes ss)) -> ls_all ss <> [] ->
  (forall k, In k (ls_strokes ss) \/ In k (ls_fills ss) -> (k < List.length (w_shapes w))%nat /\ sh_uri (shape_at w k) = S k) -> (forall k, In k (ls_strokes ss) -> ~ In k (ls_fills ss)) ->
  exists w' rows, lattice order set_ w ss = Ok (w', [(frame_table g, concat rows)]) /\ rows_as_drawn g rows /\ (7 <= d -> borders_as_drawn g (shapes_at w (ls_strokes ss)) rows) /\
    Forall2 same_but_meaning (w_shapes w) (w_shapes w') /\ (forall k, In k (ls_strokes ss) -> sh_type (shape_at w' k) = R_BORDER).
Proof. intros Ho Hcn Hc Hw Hd Hd2 Ok Ro RS D All Id Dis. exact (table_found order Ho set_ d g Hcn Hc Hw Hd Hd2 Ok Ro RS w ss D All Id Dis). Qed.
Print Assumptions C68_found.
(** Text blocks each in one cell, or with each character in one, or outside of the frame: nothing is
    lost or doubled, and what is in a cell of the output lies there on the page. *)
Theorem C68_filled order set_ ids d g r w ss bs : (forall l, Permutation l (order l)) -> 0 < connected set_ -> 0 <= clearance set_ -> 0 <= max_width set_ ->
  clearance set_ + 1 <= d -> g_width g + 2 * connected set_ + (1 # 10) <= d -> grid_ok d g -> rooted g -> tiles g r ->
  drawn_grid g (shapes_at w (ls_strokes ss)) -> ls_all ss <> [] ->
  (forall k, In k (ls_strokes ss) \/ In k (ls_fills ss) -> (k < List.length (w_shapes w))%nat /\ sh_uri (shape_at w k) = S k) -> (forall k, In k (ls_strokes ss) -> ~ In k (ls_fills ss)) ->
  exists w' rows, lattice order set_ w ss = Ok (w', [(frame_table g, concat rows)]) /\ rows_as_drawn g rows /\
    ((forall b, In b bs -> nested_block (as_block b) /\ (in_cells [(frame_table g, concat rows)] b \/ outside [(frame_table g, concat rows)] b)) ->
     exists w2 out ss2, place_tables ids w' (map LText bs) ss [(frame_table g, concat rows)] = Ok (w2, out, ss2) /\ Permutation (text_of out) (text_of (map LText bs)) /\
       (forall bb cs c x, In (LTable bb cs) out -> In c cs -> In x (text_of (lc_blocks c)) -> Rect.covers (info_box (lc_info c)) (glyph_box (fst x)))).
Proof.
  intros Ho Hcn Hc Hw Hd Hd2 Ok Ro T D All Id Dis. pose proof (tile_starts d g r Ok T) as RS.
  destruct (table_found order Ho set_ d g Hcn Hc Hw Hd Hd2 Ok Ro RS w ss D All Id Dis) as (w' & rows & E & RD & _). exists w', rows. split; [exact E|]. split; [exact RD|].
  intros Hb. apply LayoutProps.C66_tables_filled; [discriminate|apply (drawn_tidy d g r ltac:(lra) Ok T rows RD)|exact Hb].
Qed.
Print Assumptions C68_filled.

(** Fills of the page: a cell has the colour of the first fill that lies in the frame and fills 90% of
    the inside of the cell, which is then marked as shading; none, if there is no such fill. *)
Theorem C68_shaded order set_ d g r w ss : (forall l, Permutation l (order l)) -> 0 < connected set_ -> 0 <= clearance set_ -> 0 <= max_width set_ ->
  clearance set_ + 1 <= d -> g_width g + 2 * connected set_ + (1 # 10) <= d -> 7 <= d -> 1 # 10 < g_width g -> grid_ok d g -> rooted g -> tiles g r ->
  drawn_grid g (shapes_at w (ls_strokes ss)) -> ls_all ss <> [] ->
  (forall k, In k (ls_strokes ss) \/ In k (ls_fills ss) -> (k < List.length (w_shapes w))%nat /\ sh_uri (shape_at w k) = S k) ->
  (forall k, In k (ls_fills ss) -> proper (sh_bbox (shape_at w k))) ->
  exists w' rows, lattice order set_ w ss = Ok (w', [(frame_table g, concat rows)]) /\ rows_as_drawn g rows /\
    forall i j row b, nth_error rows i = Some row -> nth_error row j = Some (Some b) ->
    match bc_bg b with
    | Some col => exists pre k post, ls_fills ss = pre ++ k :: post /\ shaded_by g b (shape_at w k) /\ sh_color (shape_at w k) = col /\ sh_type (shape_at w' k) = R_SHADING /\ forall k', In k' pre -> ~ shaded_by g b (shape_at w k')
    | None => forall k, In k (ls_fills ss) -> ~ shaded_by g b (shape_at w k)
    end.
Proof. intros Ho Hcn Hc Hw Hd Hd2 D7 Wd Ok Ro T D All Id Pf. exact (table_shaded order Ho set_ d g r Hcn Hc Hw Hd Hd2 D7 Wd Ok Ro T w ss D All Id Pf). Qed.
Print Assumptions C68_shaded.

(* ------------------------------------------------------------------ *)
(** * Examples *)
Definition gr_rule (k : nat) (color : Z) (a b c d : Z) : shape :=
  let q := inject_Z in mkShape KStroke (rround (stroke_rect (q a) (q b) (q c) (q d) 2)) color R_UNDEFINED (q a) (q b) (q c) (q d) 2 k.
Definition gr_line (t : nat * (Z * Z * Z * Z)) : shape := let '(k, (a, b, c, d)) := t in gr_rule k (Z.of_nat k) a b c d.
Definition gr_lines (l : list (Z * Z * Z * Z)) : list shape := map gr_line (combine (seq 1 (length l)) l).
Definition gr_world (l : list (Z * Z * Z * Z)) : world := LayoutModel.mkW (gr_lines l) 0.
Definition gr_all (l : list (Z * Z * Z * Z)) : lshapes := let s := seq 0 (length l) in mkLS s s [] [] [].
(** Two rows, three columns; the first two places of the first row are one cell, so are the last places of both rows. *)
Definition gr_grid : grid := mkGrid [50; 100; 150; 200] [100; 120; 140] 2
  (fun _ => 0%nat) (fun i => if Nat.eqb i 1 then 2%nat else 3%nat) (fun j => if Nat.eqb j 1 then 1%nat else 0%nat) (fun _ => 2%nat).
Definition gr_drawn : list (Z * Z * Z * Z) := [(150, 100, 150, 140); (50, 120, 150, 120); (50, 100, 200, 100); (200, 100, 200, 140); (50, 100, 50, 140); (100, 120, 100, 140); (50, 140, 200, 140)]%Z.
Definition gr_tiles (i j : nat) : region :=
  match i, j with
  | O, O | O, S O => (0, 0, 1, 2)%nat
  | _, S (S _) => (0, 2, 2, 1)%nat
  | _, _ => (i, j, 1, 1)%nat
  end.
Lemma gr_drawn_by g (hl vl : list (nat * (Z * Z * Z * Z))) l : g_width g = 2 -> Permutation (combine (seq 1 (length l)) l) (hl ++ vl) -> length hl = length (g_ys g) -> length vl = length (g_xs g) ->
  (forall i t, nth_error hl i = Some t -> let '(_, (a, b, c, d)) := t in gx g (g_left g i) = inject_Z a /\ gy g i = inject_Z b /\ gx g (g_right g i) = inject_Z c /\ d = b) ->
  (forall j t, nth_error vl j = Some t -> let '(_, (a, b, c, d)) := t in gx g j = inject_Z a /\ gy g (g_top g j) = inject_Z b /\ c = a /\ gy g (g_bottom g j) = inject_Z d) ->
  drawn_grid g (gr_lines l).
Proof.
  intros W P Lh Lv Rh Rv. exists (map gr_line hl), (map gr_line vl). split; [rewrite <- map_app; apply Permutation_map; exact P|]. rewrite !map_length. split; [exact Lh|]. split; [exact Lv|]. split.
  - intros i s H. rewrite nth_error_map in H. destruct (nth_error hl i) as [t|] eqn:E; [|discriminate]. injection H as <-. specialize (Rh i t E). destruct t as [k [[[a b] c] d]]. destruct Rh as (E1 & E2 & E3 & ->).
    unfold h_rule. rewrite W, E1, E2, E3. exists (Z.of_nat k), R_UNDEFINED, k. reflexivity.
  - intros i s H. rewrite nth_error_map in H. destruct (nth_error vl i) as [t|] eqn:E; [|discriminate]. injection H as <-. specialize (Rv i t E). destruct t as [k [[[a b] c] d]]. destruct Rv as (E1 & E2 & -> & E3).
    unfold v_rule. rewrite W, E1, E2, E3. exists (Z.of_nat k), R_UNDEFINED, k. reflexivity.
Qed.
Lemma gr_perm (ts hl vl : list (nat * (Z * Z * Z * Z))) (hi vi : list nat) : hl = map (fun k => nth k ts (0%nat, (0, 0, 0, 0)%Z)) hi -> vl = map (fun k => nth k ts (0%nat, (0, 0, 0, 0)%Z)) vi -> Permutation (seq 0 (length ts)) (hi ++ vi) -> Permutation ts (hl ++ vl).
Proof.
  intros -> -> P. rewrite <- map_app. eapply Permutation_trans; [|apply Permutation_map; exact P].
  match goal with |- Permutation ts ?m => assert (E : m = ts) end; [|rewrite E; apply Permutation_refl].
  apply (nth_ext _ _ (0%nat, (0, 0, 0, 0)%Z) (0%nat, (0, 0, 0, 0)%Z)); [rewrite map_length, seq_length; reflexivity|]. intros n Hn. rewrite map_length, seq_length in Hn.
  rewrite (nth_indep _ _ (nth 0 ts (0%nat, (0, 0, 0, 0)%Z))) by (rewrite map_length, seq_length; exact Hn). rewrite (map_nth (fun k => nth k ts (0%nat, (0, 0, 0, 0)%Z))). rewrite seq_nth by exact Hn. reflexivity.
Qed.
Lemma gr_sel n l : (length l <=? n)%nat && forallb (fun i => existsb (Nat.eqb i) l) (seq 0 n) = true -> Permutation (seq 0 n) l.
Proof.
  intros H. apply andb_prop in H. destruct H as (L & F). apply Nat.leb_le in L. apply NoDup_Permutation_bis; [apply seq_NoDup|rewrite seq_length; exact L|].
  intros x Hx. rewrite forallb_forall in F. specialize (F x Hx). apply existsb_exists in F. destruct F as (y & Hy & E). apply Nat.eqb_eq in E. subst. exact Hy.
Qed.
Ltac gr_idx := apply gr_sel; vm_compute; reflexivity.
Ltac gr_rules := let i := fresh in let t := fresh in let H := fresh in intros i t H; repeat (destruct i as [|i]; [cbn [nth_error] in H; injection H as <-; repeat split; reflexivity|cbn [nth_error] in H]); destruct i; discriminate.
Ltac gr_draw l hi vi := let ts := eval cbv in (combine (seq 1 (length l)) l) in
  let hl := eval cbv in (map (fun k => nth k ts (0%nat, (0, 0, 0, 0)%Z)) hi) in let vl := eval cbv in (map (fun k => nth k ts (0%nat, (0, 0, 0, 0)%Z)) vi) in
  apply (gr_drawn_by _ hl vl l); [reflexivity|apply (gr_perm _ _ _ hi vi); [reflexivity|reflexivity|gr_idx]|reflexivity|reflexivity|gr_rules|gr_rules].
Example C68_nonvacuous : grid_ok 15 gr_grid /\ rooted gr_grid /\ tiles gr_grid gr_tiles /\ rows_start gr_grid /\ drawn_grid gr_grid (gr_lines gr_drawn) /\
  exists w ts, lattice (fun l => l) LayoutProps.ly_set (gr_world gr_drawn) (gr_all gr_drawn) = Ok (w, ts) /\
    map (fun t => map (option_map bc_merged) (snd t)) ts = [[Some (1, 2); None; Some (2, 1); Some (1, 1); Some (1, 1); None]]%nat /\ map sh_type (w_shapes w) = repeat R_BORDER 7.
Proof.
  assert (Ok : grid_ok 15 gr_grid).
  { unfold grid_ok, g_cols, g_rows, gx, gy, gr_grid. cbn [g_xs g_ys g_width g_left g_right g_top g_bottom length Nat.sub].
    split; [lia|]. split; [lia|]. split; [reflexivity|]. split; [intros j Hj; do 3 (destruct j as [|j]; [reflexivity|]); lia|]. split; [intros j Hj; do 2 (destruct j as [|j]; [reflexivity|]); lia|].
    split; [intros i Hi; do 3 (destruct i as [|i]; [cbn; lia|]); lia|]. split; [intros i Hi; do 4 (destruct i as [|i]; [cbn; lia|]); lia|]. repeat split; reflexivity. }
  assert (T : tiles gr_grid gr_tiles).
  { unfold tiles, TableSpec.partition, has_left, has_top, g_cols, g_rows, gr_grid. cbn [g_xs g_ys g_left g_right g_top g_bottom length Nat.sub]. split.
    - intros p q Hp Hq. do 2 (destruct p as [|p]; [do 3 (destruct q as [|q]; [cbn [gr_tiles in_region]; split; [lia|intros p' q' (A & B); split; [lia|]; split; [lia|];
        do 2 (destruct p' as [|p']; [do 3 (destruct q' as [|q']; [first [reflexivity|lia]|]); lia|]); lia]|]); lia|]). lia.
    - intros i j Hi Hj. do 2 (destruct i as [|i]; [do 3 (destruct j as [|j]; [cbn [gr_tiles reg_left reg_top Nat.eqb]; split; lia|]); lia|]). lia. }
  split; [exact Ok|]. split; [|split; [exact T|split; [exact (tile_starts 15 gr_grid gr_tiles Ok T)|split]]].
  - unfold rooted, g_rows, g_cols, gr_grid. cbn [g_xs g_ys g_left g_right g_top g_bottom length Nat.sub]. split; [reflexivity|]. intros j Hj. exists 2%nat. split; [lia|]. cbn [Nat.eqb]. destruct (Nat.eqb j 1); lia.
  - gr_draw gr_drawn [2; 1; 6]%nat [4; 5; 0; 3]%nat.
  - eexists. eexists. split; [vm_compute; reflexivity|]. split; vm_compute; reflexivity.
Qed.

(** A coloured fill in the first cell, one around the whole table. *)
Definition gr_fill (k : nat) (color a b c d : Z) : shape := mkShape KFill (LayoutProps.ly_rect a b c d) color R_UNDEFINED 0 0 0 0 0 k.
Example C68_shaded_nonvacuous : exists w ts,
  lattice (fun l => l) LayoutProps.ly_set (LayoutModel.mkW (gr_lines gr_drawn ++ [gr_fill 8 77 40 90 210 150; gr_fill 9 88 51 101 149 119]) 0) (mkLS (seq 0 9) (seq 0 7) [7; 8]%nat [] []) = Ok (w, ts) /\
  (forall k, In k [7; 8]%nat -> proper (sh_bbox (shape_at w k))) /\
  map (fun t => map (fun o => match o with Some b => bc_bg b | None => None end) (snd t)) ts = [[Some 88%Z; None; None; None; None; None]] /\ map sh_type (w_shapes w) = repeat R_BORDER 7 ++ [R_UNDEFINED; R_SHADING].
Proof.
  do 2 eexists. split; [vm_compute; reflexivity|]. split; [|split; vm_compute; reflexivity].
  intros k [<-|[<-|[]]]; split; vm_compute; reflexivity.
Qed.
(* ------------------------------------------------------------------ *)
(** * Where it fails *)
(** Two tables one below the other, three and five columns in one row each, every line drawn, lines in order from
    top to bottom and left to right: the left side of the second table is lost - its first cell gets
    no left border, and the line stays behind as one that is no border. *)
Definition gr_first : list (Z * Z * Z * Z) := [(0, 0, 0, 20); (0, 0, 200, 0); (100, 0, 100, 20); (150, 0, 150, 20); (200, 0, 200, 20); (0, 20, 200, 20)]%Z.
Definition gr_second : list (Z * Z * Z * Z) := [(50, 300, 50, 320); (50, 300, 300, 300); (100, 300, 100, 320); (150, 300, 150, 320); (200, 300, 200, 320); (250, 300, 250, 320); (300, 300, 300, 320); (50, 320, 300, 320)]%Z.
Definition gr_full (xs ys : list Q) : grid := mkGrid xs ys 2 (fun _ => 0%nat) (fun _ => (length xs - 1)%nat) (fun _ => 0%nat) (fun _ => (length ys - 1)%nat).
Theorem C68_two_tables_refuted : drawn_grid (gr_full [0; 100; 150; 200] [0; 20]) (gr_lines gr_first) /\ drawn_grid (gr_full [50; 100; 150; 200; 250; 300] [300; 320]) (gr_lines gr_second) /\
  exists w t1 t2 c rest, lattice (fun l => l) LayoutProps.ly_set (gr_world (gr_first ++ gr_second)) (gr_all (gr_first ++ gr_second)) = Ok (w, [t1; t2]) /\
    snd t2 = Some c :: rest /\ bc_widths c = (2, 2, 2, 0) /\ sh_type (shape_at w 6) = R_UNDEFINED.
Proof.
  split; [gr_draw gr_first [1; 5]%nat [0; 2; 3; 4]%nat|]. split; [gr_draw gr_second [1; 7]%nat [0; 2; 3; 4; 5; 6]%nat|].
  do 5 eexists. split; [vm_compute; reflexivity|]. split; [reflexivity|]. split; vm_compute; reflexivity.
Qed.
Print Assumptions C68_two_tables_refuted.
(** A single table whose inner lines meet at corners: a line is lost. *)
Definition gr_corners : list (Z * Z * Z * Z) := [(50, 40, 100, 40); (0, 60, 150, 60); (0, 0, 0, 60); (150, 0, 150, 60); (0, 0, 150, 0); (100, 0, 100, 20); (50, 40, 50, 60); (0, 20, 50, 20)]%Z.
Theorem C68_corners_refuted : exists w t, lattice (fun l => l) LayoutProps.ly_set (gr_world gr_corners) (gr_all gr_corners) = Ok (w, [t]) /\
  map (option_map bc_merged) (snd t) = [Some (1, 2); None; Some (2, 1); Some (1, 3); None; None]%nat /\ sh_type (shape_at w 0) = R_UNDEFINED.
Proof. do 2 eexists. split; [vm_compute; reflexivity|]. split; vm_compute; reflexivity. Qed.
Print Assumptions C68_corners_refuted.
