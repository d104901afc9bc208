From Verif Require Import GeomModel GeomSpec GeomProof ShapeModel TableModel TableProof StoreProof StoreProof3 GridSpec GridProof GridProof2 GridProof3 GridProof4 GridProof5 GridProof6 GridProof7.
From Verif Require Import InterModel LayoutSpec AssignProof FlowProof2 LayoutProof2 LayoutProof3.
From Verif Require TableProps GraphProof TextProof StoreSpec.
From Coq Require Import List Lia Permutation Lqa Sorted Relations.
Import ListNotations.
Open Scope Q_scope.

Lemma round1_apart x y : x + (1 # 10) < y -> round1 x < round1 y.
Proof. intros H. pose proof (round1_bound x). pose proof (round1_bound y). lra. Qed.
Section Shade.
Variables (c w d : Q) (g : grid) (strokes fills hs vs : list shape).
Hypothesis Hc : 0 <= c.
Hypothesis Hw : 0 <= w.
Hypothesis Hd : c + 1 <= d.
Hypothesis Ok : grid_ok d g.
Hypothesis PS : Permutation strokes (hs ++ vs).
Hypothesis Lh : length hs = length (g_ys g).
Hypothesis Lv : length vs = length (g_xs g).
Hypothesis Rh : forall i s, nth_error hs i = Some s -> h_rule g i s.
Hypothesis Rv : forall j s, nth_error vs j = Some s -> v_rule g j s.
Hypothesis Wide : 1 # 10 < g_width g.
Let D1 : 1 <= d. Proof. lra. Qed.
Lemma rule_box s : In s strokes -> exists x0 y0 x1 y1, sh_bbox s = rround (mkRect (x0 - g_width g / 2) (y0 - g_width g / 2) (x1 + g_width g / 2) (y1 + g_width g / 2)) /\
  gx g 0 <= x0 <= x1 /\ x1 <= gx g (g_cols g) /\ gy g 0 <= y0 <= y1 /\ y1 <= gy g (g_rows g).
Proof.
  intros H. apply (Permutation_in _ PS), in_app_or in H. pose proof Ok as (_ & _ & _ & _ & _ & LR & TB & _). destruct (grid_lens d g hs vs Ok Lh Lv) as (N1 & N2).
  destruct H as [H|H]; apply In_nth_error in H; destruct H as (i & Hi).
  - assert (Bi : (i <= g_rows g)%nat) by (assert (i < length hs)%nat by (apply nth_error_Some; congruence); lia). destruct (LR i Bi). destruct (Rh i s Hi) as (? & ? & ? & ->). cbn [sh_bbox].
    exists (gx g (g_left g i)), (gy g i), (gx g (g_right g i)), (gy g i). split; [reflexivity|].
    pose proof (bxle d g D1 Ok 0 (g_left g i) ltac:(lia) ltac:(lia)). pose proof (bxle d g D1 Ok (g_left g i) (g_right g i) ltac:(lia) ltac:(lia)). pose proof (bxle d g D1 Ok (g_right g i) (g_cols g) ltac:(lia) ltac:(lia)).
    pose proof (byle d g D1 Ok 0 i ltac:(lia) ltac:(lia)). pose proof (byle d g D1 Ok i (g_rows g) ltac:(lia) ltac:(lia)). repeat split; lra.
  - assert (Bi : (i <= g_cols g)%nat) by (assert (i < length vs)%nat by (apply nth_error_Some; congruence); lia). destruct (TB i Bi). destruct (Rv i s Hi) as (? & ? & ? & ->). cbn [sh_bbox].
    exists (gx g i), (gy g (g_top g i)), (gx g i), (gy g (g_bottom g i)). split; [reflexivity|].
    pose proof (byle d g D1 Ok 0 (g_top g i) ltac:(lia) ltac:(lia)). pose proof (byle d g D1 Ok (g_top g i) (g_bottom g i) ltac:(lia) ltac:(lia)). pose proof (byle d g D1 Ok (g_bottom g i) (g_rows g) ltac:(lia) ltac:(lia)).
    pose proof (bxle d g D1 Ok 0 i ltac:(lia) ltac:(lia)). pose proof (bxle d g D1 Ok i (g_cols g) ltac:(lia) ltac:(lia)). repeat split; lra.
Qed.
Lemma ink_is : boxes_bbox (map sh_bbox strokes) = ink_box g.
Proof.
  pose proof Ok as (C1 & C2 & _ & _ & _ & _ & _ & E1 & E2 & E3 & E4 & E5 & E6 & E7 & E8).
  assert (Hf : g_width g / 2 == g_width g * (1 # 2)) by field. 
  assert (Bx : forall e, In e (map sh_bbox strokes) -> (proper e /\ rect_decimal e) /\ Rect.covers (ink_box g) e).
  { intros e He. apply in_map_iff in He. destruct He as (s & <- & Hs). destruct (rule_box s Hs) as (x0 & y0 & x1 & y1 & -> & A1 & A2 & A3 & A4). set (h := g_width g / 2) in *. split; [split; [|apply rround_decimal]|].
    - unfold proper, rround. cbn [rx0 ry0 rx1 ry1]. split; apply round1_apart; lra.
    - unfold ink_box, Rect.covers, rround. fold h. cbn [rx0 ry0 rx1 ry1]. repeat split; apply round_p_mono; lra. }
  destruct (h_at d g hs vs Ok Lh Lv 0 ltac:(lia)) as (s0 & S0). destruct (h_at d g hs vs Ok Lh Lv (g_rows g) ltac:(lia)) as (s1 & S1).
  assert (In0 : forall s i, nth_error hs i = Some s -> In (sh_bbox s) (map sh_bbox strokes)) by (intros s i Hs; apply in_map; eapply Permutation_in; [apply Permutation_sym, PS|]; apply in_or_app; left; eapply nth_error_In; exact Hs).
  destruct (boxes_cover (map sh_bbox strokes)) as (U1 & U2 & U3 & U4); [intros Z; apply (in_nil (a := sh_bbox s0)); rewrite <- Z; apply (In0 s0 0%nat S0)|intros e He; apply Bx; exact He|]. cbv zeta in *.
  pose proof (U3 _ (In0 _ _ S0)) as (P1 & P2 & P3 & _). pose proof (U3 _ (In0 _ _ S1)) as (_ & _ & _ & P4). pose proof (U4 (ink_box g) (fun e He => proj2 (Bx e He))) as (Q1 & Q2 & Q3 & Q4).
  destruct (Rh _ _ S0) as (? & ? & ? & Es0). destruct (Rh _ _ S1) as (? & ? & ? & Es1). rewrite Es0 in P1, P2, P3. rewrite Es1 in P4. cbn [sh_bbox stroke_rect rround rx0 ry0 rx1 ry1] in P1, P2, P3, P4. rewrite E1 in P1. rewrite E2 in P3.
  apply rounded_eq; [apply rround_rounded|apply rround_rounded|]. unfold ink_box in *. unfold req. cbn [rround rx0 ry0 rx1 ry1] in *. repeat split; apply Qle_antisym; assumption.
Qed.
(** Shading of a cell with all sides drawn. *)
Hypothesis D7 : 7 <= d.
Lemma grid_bg st i j r b m n : parse_structure c w strokes fills = Parsed st -> rows_start g -> nth_error (map br_cells (to_table st)) i = Some r -> nth_error r j = Some (Some b) -> bc_merged b = (m, n) -> sides_drawn g i j m n ->
  bc_bg b = option_map sh_color (find (fun f => contains (sh_bbox f) (inside_of g b) (9 # 10)) fills) /\
  forall f, find (fun f => contains (sh_bbox f) (inside_of g b) (9 # 10)) fills = Some f -> In f (shadings st).
Proof.
  intros P RS Hr Hb Mb SD. destruct (cell_lens c w d g strokes fills hs vs Hc Hw Hd Ok PS Lh Lv Rh Rv st P) as (N1 & N2).
  destruct (grid_borders c w d g strokes fills hs vs Hc Hw Hd Ok PS Lh Lv Rh Rv D7 st P RS i j r b m n Hr Hb Mb SD) as (Wd & _).
  pose proof (grid_rows c w d g strokes fills hs vs Hc Hw Hd Ok PS Lh Lv Rh Rv st P RS) as RD.
  destruct (proj2 RD i r Hr) as (Lr & RC). destruct (RC j _ Hb) as (m' & n' & Ext & Pm & Pn & _ & _). destruct (in_range g _ i r j b m' n' RD Hr Hb Ext) as (Hi & Hj & _).
  destruct (cell_total c w d g strokes fills hs vs Hc Hw Hd Ok PS Lh Lv Rh Rv st i j P Hi Hj) as (ce & Hce).
  destruct (grid_cell c w d g strokes fills hs vs Hc Hw Hd Ok PS Lh Lv Rh Rv st i j ce P Hce) as (_ & _ & _ & Bx).
  rewrite nth_error_map in Hr. destruct (nth_error (to_table st) i) as [br|] eqn:Eb; [|discriminate]. cbn [option_map] in Hr. injection Hr as <-.
  destruct (TableProps.C56_block c w strokes fills st P) as (_ & Rows & _).
  { intros i' Hi'. rewrite N1 in Hi'. destruct (RS i' Hi') as (j' & Hj' & Hl & Ht). destruct (cell_total c w d g strokes fills hs vs Hc Hw Hd Ok PS Lh Lv Rh Rv st i' j' P Hi' Hj') as (ce' & Hce'). exists j', ce'. split; [exact Hce'|].
    destruct (grid_cell c w d g strokes fills hs vs Hc Hw Hd Ok PS Lh Lv Rh Rv st i' j' ce' P Hce') as (_ & _ & Ext' & Bx'). destruct Ext' as (F1 & F2).
    assert (X1 : (0 < ce_rows ce')%nat) by (destruct F1 as [(Z & _)|(_ & Z & _)]; [contradiction|lia]). assert (X2 : (0 < ce_cols ce')%nat) by (destruct F2 as [(Z & _)|(_ & Z & _)]; [contradiction|lia]).
    assert (X3 : (i' + ce_rows ce' <= g_rows g)%nat) by (destruct F1 as [(Z & _)|(_ & _ & Z & _)]; [contradiction|exact Z]). assert (X4 : (j' + ce_cols ce' <= g_cols g)%nat) by (destruct F2 as [(Z & _)|(_ & _ & Z & _)]; [contradiction|exact Z]).
    split.
    - unfold is_merged. apply Bool.orb_false_iff. split; apply Nat.eqb_neq; lia.
    - apply proper_nonempty. rewrite Bx'. unfold proper, rround. cbn [rx0 ry0 rx1 ry1]. rewrite !round1_round1.
      pose proof (bx d g D1 Ok j' (j' + ce_cols ce') ltac:(lia) X4). pose proof (by_ d g D1 Ok i' (i' + ce_rows ce') ltac:(lia) X3). split; apply round1_apart; lra. }
  destruct (Rows i br Eb) as (_ & _ & Cs). destruct (Cs j ce Hce) as (o' & Ho' & M). rewrite Hb in Ho'. injection Ho' as <-. destruct M as (M1 & M2 & _ & M4 & tp & bt & lf & rg & Eb4 & _ & Ew).
  rewrite Wd in Ew. injection Ew as W1 W2 W3 W4.
  destruct (cell_finish c w strokes fills st i j ce P Hce M1) as (bs & _ & Eb5 & Es). rewrite Eb4 in Eb5. injection Eb5 as <-. unfold parse_shading in Es. rewrite <- W1, <- W2, <- W3, <- W4 in Es.
  assert (Eb6 : bc_bbox b = ce_bbox ce) by (rewrite M2, Bx; unfold rround; cbn [rx0 ry0 rx1 ry1]; rewrite !round1_round1; reflexivity).
  rewrite <- Eb6 in Es. assert (Es' : ce_shading ce = find (fun f => contains (sh_bbox f) (inside_of g b) (9 # 10)) fills) by exact Es. clear Es. rename Es' into Es.
  split; [rewrite M4, Es; reflexivity|]. intros f Hf. rewrite Hf in Es. destruct Hce as (row & Hrow & Hcell). unfold shadings. apply in_flat_map. exists row. split; [eapply nth_error_In; exact Hrow|].
  apply in_flat_map. exists ce. split; [eapply nth_error_In; exact Hcell|]. rewrite Es. left. reflexivity.
Qed.
End Shade.
Section FoundShade.
Variable order : list nat -> list nat.
Hypothesis Ho : forall l, Permutation l (order l).
Variables (set_ : settings) (d : Q) (g : grid) (r : nat -> nat -> region).
Hypothesis Hcn : 0 < connected set_.
Hypothesis Hc : 0 <= clearance set_.
Hypothesis Hw : 0 <= max_width set_.
Hypothesis Hd : clearance set_ + 1 <= d.
Hypothesis Hd2 : g_width g + 2 * connected set_ + (1 # 10) <= d.
Hypothesis D7 : 7 <= d.
Hypothesis Wide : 1 # 10 < g_width g.
Hypothesis Ok_ : grid_ok d g.
Hypothesis Root : rooted g.
Hypothesis T : tiles g r.
Lemma table_shaded w ss : drawn_grid g (shapes_at w (ls_strokes ss)) -> ls_all ss <> [] ->
  (forall k, In k (ls_strokes ss) \/ In k (ls_fills ss) -> (k < List.length (w_shapes w))%nat /\ sh_uri (shape_at w k) = S k) ->
  (forall k, In k (ls_fills ss) -> proper (sh_bbox (shape_at w k))) ->
  exists w' rows, lattice order set_ w ss = Ok (w', [(frame_table g, concat rows)]) /\ rows_as_drawn g rows /\
    forall i j row b, nth_error rows i = Some row -> nth_error row j = Some (Some b) ->
    match bc_bg b with
    | Some col => exists pre k post, ls_fills ss = pre ++ k :: post /\ shaded_by g b (shape_at w k) /\ sh_color (shape_at w k) = col /\ sh_type (shape_at w' k) = R_SHADING /\ forall k', In k' pre -> ~ shaded_by g b (shape_at w k')
    | None => forall k, In k (ls_fills ss) -> ~ shaded_by g b (shape_at w k)
    end.
Proof.
  intros D All Id Pf. pose proof D as (hs & vs & PS & Lh & Lv & Rh & Rv). pose proof (tile_starts d g r Ok_ T) as Start.
  assert (Hd1 : 1 <= d) by lra.
  destruct (one_group d (connected set_) g (shapes_at w (ls_strokes ss)) hs vs Hd1 Ok_ PS Lh Lv Rh Rv Hcn Hd2 Root order Ho) as (grp & G1 & G2).
  unfold shapes_at in G2. rewrite map_length in G2.
  set (sel := map (fun i => nth i (ls_strokes ss) 0%nat) grp).
  assert (Ps : Permutation sel (ls_strokes ss)) by (unfold sel; eapply Permutation_trans; [apply Permutation_map; exact G2|rewrite nth_seq_map; apply Permutation_refl]).
  assert (Psh : Permutation (shapes_at w sel) (shapes_at w (ls_strokes ss))) by (apply Permutation_map; exact Ps).
  unfold lattice. destruct (ls_all ss) as [|x0 xs0] eqn:Eall; [congruence|]. clear All.
  rewrite G1. cbn [map]. fold sel. rewrite overlap_one by exact Ho. cbn [each_group].
  unfold lattice_one. set (fs := filter _ (shapes_at w (ls_fills ss))).
  assert (PS' : Permutation (shapes_at w sel) (hs ++ vs)) by (eapply Permutation_trans; [exact Psh|exact PS]).
  destruct (grid_parsed (clearance set_) (max_width set_) d g (shapes_at w sel) fs hs vs Hc Hw Hd Ok_ PS' Lh Lv Rh Rv) as (st & P & _ & _ & _ & _).
  pose proof (grid_rows (clearance set_) (max_width set_) d g (shapes_at w sel) fs hs vs Hc Hw Hd Ok_ PS' Lh Lv Rh Rv st P Start) as RD.
  rewrite P. unfold finish. rewrite (drawn_box d g Hd1 Ok_ (to_table st) RD), (frame_truth set_ d g Hc Hd Ok_). cbn [bind fst snd app].
  exists (mark st w), (map br_cells (to_table st)). split; [|split; [exact RD|]].
  { unfold table_of_rows. rewrite (drawn_box d g Hd1 Ok_ (to_table st) RD), (grid_heights (clearance set_) (max_width set_) d g (shapes_at w sel) fs hs vs Hc Hw Hd Ok_ PS' Lh Lv Rh Rv st P Start), <- flat_map_concat_map. reflexivity. }
  intros i j row b Hr Hb. destruct (proj2 RD i row Hr) as (_ & RC). destruct (RC j _ Hb) as (m & n & Ext & Pm & Pn & _ & Mb). destruct (in_range g _ i row j b m n RD Hr Hb Ext) as (Hi & Hj & _).
  pose proof (tile_sides d g r Ok_ T i j i j m n Hi Hj (extent_tile g r T i j m n Hi Hj Ext Pm Pn)) as SD.
  destruct (grid_bg (clearance set_) (max_width set_) d g (shapes_at w sel) fs hs vs Hc Hw Hd Ok_ PS' Lh Lv Rh Rv D7 st i j row b m n P Start Hr Hb Mb SD) as (Bg & Sh). rewrite Bg.
  assert (Ink : group_box w sel = ink_box g) by exact (ink_is (clearance set_) d g (shapes_at w sel) hs vs Hc Hd Ok_ PS' Lh Lv Rh Rv Wide).
  assert (Pi : proper (ink_box g)).
  { pose proof Ok_ as (C1 & C2 & _). unfold ink_box, proper, rround. cbn [rx0 ry0 rx1 ry1]. assert (Hf : g_width g / 2 == g_width g * (1 # 2)) by field. set (h := g_width g / 2) in *.
    pose proof (bx d g Hd1 Ok_ 0 (g_cols g) ltac:(lia) ltac:(lia)). pose proof (by_ d g Hd1 Ok_ 0 (g_rows g) ltac:(lia) ltac:(lia)). split; apply round1_apart; lra. }
  assert (In_fs : forall k, In k (ls_fills ss) -> rcontains (group_box w sel) (sh_bbox (shape_at w k)) = true <-> Rect.covers (ink_box g) (sh_bbox (shape_at w k))).
  { intros k Hk. rewrite Ink, (rcontains_coversb _ _ Pi (Pf k Hk)). apply coversb_iff. }
  set (hit := fun f => contains (sh_bbox f) (inside_of g b) (9 # 10)) in *.
  assert (Split : forall l, (forall k, In k l -> In k (ls_fills ss)) -> match find hit (filter (fun s => rcontains (group_box w sel) (sh_bbox s)) (shapes_at w l)) with
    | Some f => exists pre k post, l = pre ++ k :: post /\ f = shape_at w k /\ shaded_by g b f /\ forall k', In k' pre -> ~ shaded_by g b (shape_at w k')
    | None => forall k, In k l -> ~ shaded_by g b (shape_at w k) end).
  { induction l as [|k l IH]; intros Hl; [intros k []|]. unfold shapes_at in *. cbn [map filter]. specialize (IH (fun x Hx => Hl x (or_intror Hx))). specialize (In_fs k (Hl k (or_introl eq_refl))).
    destruct (rcontains (group_box w sel) (sh_bbox (shape_at w k))) eqn:Ec.
    - cbn [find]. destruct (hit (shape_at w k)) eqn:Eh.
      + exists [], k, l. split; [reflexivity|]. split; [reflexivity|]. split; [split; [apply In_fs; reflexivity|exact Eh]|intros k' []].
      + assert (Nk : ~ shaded_by g b (shape_at w k)) by (intros (_ & Z); unfold hit in Eh; congruence). match goal with |- context [find hit ?X] => destruct (find hit X) as [f|] end.
        * destruct IH as (pre & k0 & post & -> & A & B & C). exists (k :: pre), k0, post. split; [reflexivity|]. split; [exact A|]. split; [exact B|]. intros k' [<-|Hk']; [exact Nk|apply C, Hk'].
        * intros k' [<-|Hk']; [exact Nk|apply IH, Hk'].
    - assert (Nk : ~ shaded_by g b (shape_at w k)) by (intros (Z & _); apply In_fs in Z; discriminate). match goal with |- context [find hit ?X] => destruct (find hit X) as [f|] end.
      + destruct IH as (pre & k0 & post & -> & A & B & C). exists (k :: pre), k0, post. split; [reflexivity|]. split; [exact A|]. split; [exact B|]. intros k' [<-|Hk']; [exact Nk|apply C, Hk'].
      + intros k' [<-|Hk']; [exact Nk|apply IH, Hk']. }
  specialize (Split (ls_fills ss) (fun k Hk => Hk)). fold fs in Split. destruct (find hit fs) as [f|] eqn:Ef; cbn [option_map]; [|exact Split].
  destruct Split as (pre & k & post & E1 & -> & E2 & E3). exists pre, k, post. split; [exact E1|]. split; [exact E2|]. split; [reflexivity|]. split; [|exact E3].
  assert (Hk : In k (ls_fills ss)) by (rewrite E1; apply in_or_app; right; left; reflexivity). destruct (Id k (or_intror Hk)) as (Bk & Uk).
  unfold mark. rewrite retype_all_type.
  assert (Ln : forall t l w0, List.length (w_shapes (retype_all t l w0)) = List.length (w_shapes w0)).
  { intros t l. induction l as [|s l IH]; intros w0; [reflexivity|]. change (retype_all t (s :: l) w0) with (retype_all t l (retype t (sh_uri s) w0)). rewrite IH, retype_length. reflexivity. }
  rewrite !Ln. assert (Bk' : Nat.ltb k (List.length (w_shapes w)) = true) by (apply Nat.ltb_lt; exact Bk). rewrite Bk'.
  assert (Ex : existsb (fun s => Nat.eqb (S k) (sh_uri s)) (shadings st) = true) by (apply existsb_exists; exists (shape_at w k); split; [apply Sh; reflexivity|apply Nat.eqb_eq; symmetry; exact Uk]).
  rewrite Ex. reflexivity.
Qed.
End FoundShade.
