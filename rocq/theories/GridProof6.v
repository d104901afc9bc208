From Verif Require Import GeomModel GeomSpec GeomProof ShapeModel TableModel TableProof StoreProof StoreProof3 GridSpec GridProof GridProof2 GridProof3 GridProof4 GridProof5.
From Verif Require Import InterModel LayoutSpec AssignProof FlowProof2 LayoutProof2 LayoutProof3.
From Verif Require TableProps GraphProof TextProof.
From Coq Require Import List Lia Permutation Lqa Sorted Relations.
Import ListNotations.
Open Scope Q_scope.

(* ------------------------------------------------------------------ *)
(** * The cells of a frame cut into rectangles *)
Section Tiles.
Variables (d : Q) (g : grid) (r : nat -> nat -> region).
Hypothesis Ok : grid_ok d g.
Hypothesis T : tiles g r.
Lemma tile_extent p q i j m n : (p < g_rows g)%nat -> (q < g_cols g)%nat -> r p q = (i, j, m, n) -> cell_extent g i j m n /\ (i < g_rows g)%nat /\ (j < g_cols g)%nat /\ (0 < m)%nat /\ (0 < n)%nat /\ r i j = (i, j, m, n).
Proof.
  destruct T as (P & B). intros Hp Hq E. destruct (region_run _ _ r P p q i j m n Hp Hq E) as (R1 & R2 & Hi & Hj). destruct (P p q Hp Hq) as (I & C). rewrite E in *. cbn [in_region] in I.
  split; [split|].
  - eapply run_length_ext; [|exact Hi|exact R2]. intros k Hk. symmetry. apply (B k j Hk Hj).
  - eapply run_length_ext; [|exact Hj|exact R1]. intros k Hk. symmetry. apply (B i k Hi Hk).
  - split; [exact Hi|]. split; [exact Hj|]. split; [lia|]. split; [lia|]. apply C. cbn [in_region]. lia.
Qed.
Lemma tile_starts : rows_start g.
Proof.
  pose proof T as (P & B). pose proof Ok as (_ & _ & _ & _ & _ & LR & _). intros i Hi. destruct (LR i ltac:(lia)) as (L1 & L2).
  assert (Hk : (g_left g i < g_cols g)%nat) by lia.
  assert (Ht : has_top g i (g_left g i)) by (unfold has_top; lia). apply (B i (g_left g i) Hi Hk) in Ht.
  destruct (r i (g_left g i)) as [[[i' j'] m] n] eqn:E. cbn [reg_top] in Ht. subst i'.
  destruct (tile_extent i (g_left g i) i j' m n Hi Hk E) as (_ & _ & Hj & _ & _ & Er). exists j'. split; [exact Hj|].
  split; apply (B i j' Hi Hj); rewrite Er; reflexivity.
Qed.
Lemma tile_sides p q i j m n : (p < g_rows g)%nat -> (q < g_cols g)%nat -> r p q = (i, j, m, n) -> sides_drawn g i j m n.
Proof.
  intros Hp Hq E. pose proof T as (P & B). destruct (P p q Hp Hq) as (I & C). rewrite E in *. cbn [in_region] in I.
  pose proof Ok as (_ & _ & _ & _ & _ & _ & _ & E1 & E2 & E3 & E4 & E5 & E6 & E7 & E8).
  assert (N : forall p' q', in_region (i, j, m, n) p' q' -> (p' < g_rows g)%nat /\ (q' < g_cols g)%nat /\ r p' q' = (i, j, m, n)) by exact C.
  split; intros k Hk.
  - destruct (N i k ltac:(cbn [in_region]; lia)) as (A1 & A2 & A3). split; [apply (B i k A1 A2); rewrite A3; reflexivity|].
    destruct (N (i + m - 1)%nat k ltac:(cbn [in_region]; lia)) as (F1 & _ & F3).
    destruct (Nat.eq_dec (i + m) (g_rows g)) as [Z|Z]; [unfold has_top; rewrite Z, E3, E4; lia|].
    apply (B (i + m)%nat k ltac:(lia) A2). destruct (r (i + m)%nat k) as [[[i' j'] m'] n'] eqn:Er. cbn [reg_top].
    destruct (P (i + m)%nat k ltac:(lia) A2) as (I' & C'). rewrite Er in *. cbn [in_region] in I'.
    destruct (Nat.eq_dec i' (i + m)) as [|Ne]; [assumption|exfalso].
    destruct (C' (i + m - 1)%nat k ltac:(cbn [in_region]; lia)) as (_ & _ & X). rewrite F3 in X. injection X as -> -> -> ->. lia.
  - destruct (N k j ltac:(cbn [in_region]; lia)) as (A1 & A2 & A3). split; [apply (B k j A1 A2); rewrite A3; reflexivity|].
    destruct (N k (j + n - 1)%nat ltac:(cbn [in_region]; lia)) as (_ & F1 & F3).
    destruct (Nat.eq_dec (j + n) (g_cols g)) as [Z|Z]; [unfold has_left; rewrite Z, E7, E8; lia|].
    apply (B k (j + n)%nat A1 ltac:(lia)). destruct (r k (j + n)%nat) as [[[i' j'] m'] n'] eqn:Er. cbn [reg_left].
    destruct (P k (j + n)%nat A1 ltac:(lia)) as (I' & C'). rewrite Er in *. cbn [in_region] in I'.
    destruct (Nat.eq_dec j' (j + n)) as [|Ne]; [assumption|exfalso].
    destruct (C' k (j + n - 1)%nat ltac:(cbn [in_region]; lia)) as (_ & _ & X). rewrite F3 in X. injection X as -> -> -> ->. lia.
Qed.
End Tiles.

(* ------------------------------------------------------------------ *)
(** * Meanings given to shapes *)
Lemma upd_at_type t k : forall l x, (k < List.length l)%nat -> sh_type (nth x (upd_at k (fun s => BorderModel.set_type s t) l) empty_stroke) = if Nat.eqb x k then t else sh_type (nth x l empty_stroke).
Proof.
  induction k as [|k IH]; intros [|a l] x H; cbn [List.length] in H; try lia; destruct x as [|x]; cbn [upd_at nth Nat.eqb]; try reflexivity. apply IH. lia.
Qed.
Lemma upd_at_out {A} (f : A -> A) k : forall l, (List.length l <= k)%nat -> upd_at k f l = l.
Proof. induction k as [|k IH]; intros [|a l] H; cbn [upd_at List.length] in *; try reflexivity; try lia. rewrite IH by lia. reflexivity. Qed.
Lemma retype_type t i w x : sh_type (shape_at (retype t i w) x) = if Nat.eqb (S x) i && Nat.ltb x (List.length (w_shapes w)) then t else sh_type (shape_at w x).
Proof.
  destruct i as [|k]; [reflexivity|]. unfold retype, shape_at. cbn [w_shapes]. destruct (lt_dec k (List.length (w_shapes w))) as [H|H].
  - rewrite upd_at_type by exact H. change (Nat.eqb (S x) (S k)) with (Nat.eqb x k). destruct (Nat.eqb x k) eqn:E; cbn [andb]; [|reflexivity]. apply Nat.eqb_eq in E. subst. destruct (Nat.ltb k (List.length (w_shapes w))) eqn:L; [reflexivity|]. apply Nat.ltb_ge in L. lia.
  - rewrite upd_at_out by lia. change (Nat.eqb (S x) (S k)) with (Nat.eqb x k). destruct (Nat.eqb x k) eqn:E; cbn [andb]; [|reflexivity]. apply Nat.eqb_eq in E. subst. destruct (Nat.ltb k (List.length (w_shapes w))) eqn:L; [|reflexivity]. apply Nat.ltb_lt in L. lia.
Qed.
Lemma retype_length t i w : List.length (w_shapes (retype t i w)) = List.length (w_shapes w).
Proof. destruct i as [|k]; [reflexivity|]. cbn [retype w_shapes]. generalize (w_shapes w). induction k as [|k IH]; intros [|a l]; cbn [upd_at List.length]; try reflexivity. rewrite IH. reflexivity. Qed.
Lemma retype_all_type t l : forall w x, sh_type (shape_at (retype_all t l w) x) = if existsb (fun s => Nat.eqb (S x) (sh_uri s)) l && Nat.ltb x (List.length (w_shapes w)) then t else sh_type (shape_at w x).
Proof.
  induction l as [|s l IH]; intros w x; [reflexivity|]. change (retype_all t (s :: l) w) with (retype_all t l (retype t (sh_uri s) w)). rewrite IH, retype_type, retype_length. cbn [existsb].
  destruct (Nat.eqb (S x) (sh_uri s)); cbn [orb andb]; destruct (existsb (fun s => Nat.eqb (S x) (sh_uri s)) l); cbn [andb]; destruct (Nat.ltb x (List.length (w_shapes w))); reflexivity.
Qed.
Lemma shadings_fills c wd strokes fills st s : parse_structure c wd strokes fills = Parsed st -> In s (shadings st) -> In s fills.
Proof.
  intros P H. unfold shadings in H. apply in_flat_map in H. destruct H as (row & Hr & H). apply in_flat_map in H. destruct H as (ce & Hc & H).
  destruct (ce_shading ce) as [f|] eqn:E; [|destruct H]. destruct H as [<-|[]].
  apply In_nth_error in Hr. destruct Hr as (i & Hi). apply In_nth_error in Hc. destruct Hc as (j & Hj).
  destruct (parse_inv _ _ _ _ _ P) as (vb & hb & _ & _ & _ & _ & _ & Ev & Eh & Lc & Lr & A).
  assert (Bi : (i < nrows st)%nat) by (rewrite <- Lc; apply nth_error_Some; congruence). assert (Bj : (j < ncols st)%nat) by (rewrite <- (Lr row (nth_error_In _ _ Hi)); apply nth_error_Some; congruence).
  destruct (A i j Bi Bj) as (ce' & (row' & R1 & R2) & F). assert (row' = row) by congruence. subst row'. assert (ce' = ce) by congruence. subst ce'.
  unfold finish_cell in F. destruct (is_merged _) in F.
  - injection F as <-. cbn [ce_shading merge_cell] in E. discriminate.
  - destruct (parse_borders _ _ _) as [bs|] in F; [|discriminate]. injection F as <-. cbn [ce_shading] in E. unfold parse_shading in E.
    destruct bs as [[[? ?] ?] ?]. apply find_some in E. apply E.
Qed.
(* ------------------------------------------------------------------ *)
(** * The table is found *)
Lemma drawn_grid_perm g l l' : Permutation l l' -> drawn_grid g l -> drawn_grid g l'.
Proof. intros P (hs & vs & A & B). exists hs, vs. split; [|exact B]. eapply Permutation_trans; [apply Permutation_sym; exact P|exact A]. Qed.
Lemma borders_perm g l l' rows : Permutation l l' -> borders_as_drawn g l rows -> borders_as_drawn g l' rows.
Proof.
  intros P H i j r b m n A1 A2 A3 A4. destruct (H i j r b m n A1 A2 A3 A4) as (W & tp & rg & bt & lf & B1 & B2 & B3 & B4 & B5). split; [exact W|]. exists tp, rg, bt, lf.
  split; [eapply Permutation_in; eassumption|]. split; [eapply Permutation_in; eassumption|]. split; [eapply Permutation_in; eassumption|]. split; [eapply Permutation_in; eassumption|]. exact B5.
Qed.
Lemma overlap_one {A} order (box : A -> rect) x : (forall l, Permutation l (order l)) -> remove_overlap order box [x] = [x].
Proof.
  intros Ho. destruct (overlap_shape order Ho box [x]) as (gi & _ & -> & ND & Rg & NE & _).
  assert (P : Permutation (concat gi) [0%nat]) by (apply NoDup_Permutation; [exact ND|repeat constructor; intros []|]; intros i; rewrite <- Rg; cbn [List.length In]; lia).
  apply Permutation_sym, Permutation_length_1_inv in P. destruct gi as [|[|a t] gi]; [discriminate|exfalso; apply (NE [] (or_introl eq_refl)); reflexivity|].
  cbn [concat app] in P. injection P as -> P. apply app_eq_nil in P. destruct P as (-> & P).
  destruct gi as [|[|b t'] gi]; [|exfalso; apply (NE [] (or_intror (or_introl eq_refl))); reflexivity|discriminate]. reflexivity.
Qed.
Lemma nth_seq_map (l : list nat) : map (fun i => nth i l 0%nat) (seq 0 (List.length l)) = l.
Proof.
  apply (nth_ext _ _ 0%nat 0%nat); [rewrite map_length, seq_length; reflexivity|]. intros n Hn. rewrite map_length, seq_length in Hn.
  rewrite (nth_indep _ _ (nth 0 l 0%nat)) by (rewrite map_length, seq_length; exact Hn). rewrite (map_nth (fun i => nth i l 0%nat)). rewrite seq_nth by exact Hn. reflexivity.
Qed.
Section Found.
Variable order : list nat -> list nat.
Hypothesis Ho : forall l, Permutation l (order l).
Variables (set_ : settings) (d : Q) (g : grid).
Hypothesis Hcn : 0 < connected set_.
Hypothesis Hc : 0 <= clearance set_.
Hypothesis Hw : 0 <= max_width set_.
Hypothesis Hd : clearance set_ + 1 <= d.
Hypothesis Hd2 : g_width g + 2 * connected set_ + (1 # 10) <= d.
Hypothesis Ok_ : grid_ok d g.
Hypothesis Root : rooted g.
Hypothesis Start : rows_start g.
Lemma frame_truth : rect_bool (frame_box g) = true.
Proof.
  pose proof Ok_ as (C1 & C2 & _). destruct (place_box d g ltac:(lra) Ok_ 0 0 (g_rows g) (g_cols g) ltac:(lia) ltac:(lia) ltac:(lia) ltac:(lia)) as ((P & _) & _).
  apply GeomProof.proper_truthy. exact P.
Qed.
Lemma table_found w ss : drawn_grid g (shapes_at w (ls_strokes ss)) -> ls_all ss <> [] ->
  (forall k, In k (ls_strokes ss) \/ In k (ls_fills ss) -> (k < List.length (w_shapes w))%nat /\ sh_uri (shape_at w k) = S k) ->
  (forall k, In k (ls_strokes ss) -> ~ In k (ls_fills ss)) ->
  exists w' rows, lattice order set_ w ss = Ok (w', [(frame_table g, concat rows)]) /\ rows_as_drawn g rows /\ (7 <= d -> borders_as_drawn g (shapes_at w (ls_strokes ss)) rows) /\
    Forall2 same_but_meaning (w_shapes w) (w_shapes w') /\ (forall k, In k (ls_strokes ss) -> sh_type (shape_at w' k) = R_BORDER).
Proof.
  intros D All Id Dis. pose proof D as (hs & vs & PS & Lh & Lv & Rh & Rv).
  assert (Hd1 : 1 <= d) by lra.
  destruct (one_group d (connected set_) g (shapes_at w (ls_strokes ss)) hs vs Hd1 Ok_ PS Lh Lv Rh Rv Hcn Hd2 Root order Ho) as (grp & G1 & G2).
  unfold shapes_at in G2. rewrite map_length in G2.
  set (sel := map (fun i => nth i (ls_strokes ss) 0%nat) grp).
  assert (Ps : Permutation sel (ls_strokes ss)) by (unfold sel; eapply Permutation_trans; [apply Permutation_map; exact G2|rewrite nth_seq_map; apply Permutation_refl]).
  assert (Psh : Permutation (shapes_at w sel) (shapes_at w (ls_strokes ss))) by (apply Permutation_map; exact Ps).
  unfold lattice. destruct (ls_all ss) as [|x0 xs0] eqn:Eall; [congruence|]. clear All.
  rewrite G1. cbn [map]. fold sel. rewrite overlap_one by exact Ho. cbn [each_group].
  unfold lattice_one. set (fs := filter _ (shapes_at w (ls_fills ss))).
  assert (PS' : Permutation (shapes_at w sel) (hs ++ vs)) by (eapply Permutation_trans; [exact Psh|exact PS]).
  destruct (grid_parsed (clearance set_) (max_width set_) d g (shapes_at w sel) fs hs vs Hc Hw Hd Ok_ PS' Lh Lv Rh Rv) as (st & P & Sh & Sv & _ & _).
  pose proof (grid_rows (clearance set_) (max_width set_) d g (shapes_at w sel) fs hs vs Hc Hw Hd Ok_ PS' Lh Lv Rh Rv st P Start) as RD.
  rewrite P. unfold finish. rewrite (drawn_box d g Hd1 Ok_ (to_table st) RD), frame_truth. cbn [bind fst snd app].
  exists (mark st w), (map br_cells (to_table st)). split; [|split; [exact RD|split; [|split; [apply mark_alike|]]]].
  - unfold table_of_rows. rewrite (drawn_box d g Hd1 Ok_ (to_table st) RD), (grid_heights (clearance set_) (max_width set_) d g (shapes_at w sel) fs hs vs Hc Hw Hd Ok_ PS' Lh Lv Rh Rv st P Start), <- flat_map_concat_map. reflexivity.
  - intros D7. apply (borders_perm _ _ _ _ Psh).
    apply (grid_borders (clearance set_) (max_width set_) d g (shapes_at w sel) fs hs vs Hc Hw Hd Ok_ PS' Lh Lv Rh Rv D7 st P Start).
  - intros k Hk. destruct (Id k (or_introl Hk)) as (Bk & Uk). unfold mark. rewrite retype_all_type.
    assert (NoF : existsb (fun s => Nat.eqb (S k) (sh_uri s)) (shadings st) = false).
    { destruct (existsb _ (shadings st)) eqn:E; [|reflexivity]. exfalso. apply existsb_exists in E. destruct E as (s & Is & Es). apply Nat.eqb_eq in Es.
      apply (shadings_fills _ _ _ _ _ _ P) in Is. unfold fs in Is. apply filter_In in Is. destruct Is as (Is & _). apply in_map_iff in Is. destruct Is as (k' & <- & Hk').
      destruct (Id k' (or_intror Hk')) as (_ & U'). rewrite U' in Es. injection Es as ->. exact (Dis k' Hk Hk'). }
    rewrite NoF. cbn [andb]. rewrite retype_all_type.
    assert (Is : In (shape_at w k) hs \/ In (shape_at w k) vs) by (apply in_app_or; eapply Permutation_in; [exact PS|]; apply in_map; exact Hk).
    assert (Ln : forall t l w0, List.length (w_shapes (retype_all t l w0)) = List.length (w_shapes w0)).
    { intros t l. induction l as [|s l IH]; intros w0; [reflexivity|]. change (retype_all t (s :: l) w0) with (retype_all t l (retype t (sh_uri s) w0)). rewrite IH, retype_length. reflexivity. }
    rewrite Ln. assert (Bk' : Nat.ltb k (List.length (w_shapes w)) = true) by (apply Nat.ltb_lt; exact Bk). rewrite Bk'.
    destruct (existsb (fun s => Nat.eqb (S k) (sh_uri s)) (dict_shapes (st_v st))) eqn:Ev; [reflexivity|]. cbn [andb]. rewrite retype_all_type, Bk'.
    assert (Eh : existsb (fun s => Nat.eqb (S k) (sh_uri s)) (dict_shapes (st_h st)) = true).
    { destruct Is as [Is|Is].
      - apply existsb_exists. exists (shape_at w k). split; [|apply Nat.eqb_eq; symmetry; exact Uk]. rewrite Sh.
        apply In_nth_error in Is. destruct Is as (i & Hi). destruct (grid_h_spec (clearance set_) (max_width set_) d g (shapes_at w sel) hs vs Hc Hw Hd Ok_ PS' Lh Lv Rh Rv) as (_ & _ & G). destruct (G i _ Hi) as (dums & Gd & _).
        apply dget_In in Gd. destruct Gd as (key & Gd & _). apply in_flat_map. eexists. split; [exact Gd|left; reflexivity].
      - exfalso. assert (X : existsb (fun s => Nat.eqb (S k) (sh_uri s)) (dict_shapes (st_v st)) = true); [|congruence].
        apply existsb_exists. exists (shape_at w k). split; [|apply Nat.eqb_eq; symmetry; exact Uk]. rewrite Sv.
        apply In_nth_error in Is. destruct Is as (i & Hi). destruct (grid_v_spec (clearance set_) (max_width set_) d g (shapes_at w sel) hs vs Hc Hw Hd Ok_ PS' Lh Lv Rh Rv) as (_ & _ & G). destruct (G i _ Hi) as (dums & Gd & _).
        apply dget_In in Gd. destruct Gd as (key & Gd & _). apply in_flat_map. eexists. split; [exact Gd|left; reflexivity]. }
    rewrite Eh. reflexivity.
Qed.
End Found.
