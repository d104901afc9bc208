(** Distribution of the text blocks of a page over the cells of a table. *)
From Verif Require GeomProof TableProps TableSpec.
From Verif Require Import AssignSpec AssignProof InterProof GraphProof TextProof PySort FlowModel FlowSpec FlowProof FlowProof2 FlowProps LayoutSpec LayoutProof.
From Verif Require Import CleanSpec CleanProof CleanProof2 CleanProof3 CleanProps.
From Verif Require Import WholeSpec.
From Verif Require Import CleanModel CleanSpec FlowModel FlowSpec LayoutModel WholeModel WholeSpec WholeProof WholeProof2 WholeProof3 WholeProof4 WholeProof5.
From Verif Require Import PlaceSpec PlaceProof3 TabProof TabProof2.
From Coq Require Import Lia Lqa Permutation Sorting.Sorted.
Notation length := List.length.
Open Scope Q_scope.

Definition tb (b : tblock) : block := BText (b_bbox b) (b_lines b).
(** A block as the clean-up makes it: the hull of its lines. *)
Definition hulled (b : tblock) : Prop := b_img b = false /\ b_lines b <> [] /\ exists m, b_bbox b = hull m /\ forall l, In l m <-> In l (b_lines b).
Lemma text_block_hull ls : (forall l, In l ls -> ln_bool l = true) -> text_block ls = BText (hull ls) ls.
Proof.
  intros H. unfold text_block, hull. assert (G : forall r k, fold_left (fun b l => match b with BText r k => if ln_bool l then BText (union_bbox r (ln_bbox l)) (k ++ [l]) else b | BTable _ _ => b end) ls (BText r k)
    = BText (fold_left (fun r l => union_bbox r (ln_bbox l)) ls r) (k ++ ls)); [|apply G].
  induction ls as [|l t IH]; intros r k; cbn [fold_left]; [rewrite app_nil_r; reflexivity|]. rewrite (H l (or_introl eq_refl)), IH by (intros x Hx; apply H; right; exact Hx). rewrite <- app_assoc. reflexivity.
Qed.
Lemma hulled_box b : hulled b -> (forall l, In l (b_lines b) -> box (ln_bbox l)) -> box (b_bbox b) /\ (forall l, In l (b_lines b) -> Rect.covers (b_bbox b) (ln_bbox l)) /\
  (exists l, In l (b_lines b) /\ ry0 (b_bbox b) == ry0 (ln_bbox l)) /\ (exists l, In l (b_lines b) /\ ry1 (b_bbox b) == ry1 (ln_bbox l)).
Proof.
  intros (_ & N & m & E & M) H. assert (Nm : m <> []) by (destruct (b_lines b) as [|l t]; [congruence|]; intros ->; apply (M l); left; reflexivity).
  destruct (hull_sides m Nm (fun l Hl => H l (proj1 (M l) Hl))) as (B & (L1 & L2) & (R1 & R2) & (T1 & T2) & (D1 & D2)). rewrite E. split; [exact B|]. split; [|split].
  - intros l Hl. apply M in Hl. repeat split; [apply L2|apply T2|apply R2|apply D2]; exact Hl.
  - destruct T1 as (l & Hl & K). exists l. split; [apply M, Hl|exact K].
  - destruct D1 as (l & Hl & K). exists l. split; [apply M, Hl|exact K].
Qed.
(** A line beside the cell. *)
Lemma clip_apart c l : proper c -> proper (ln_bbox l) -> apart c (ln_bbox l) -> (forall s, In s (ln_spans l) -> proper (span_bbox s) /\ Rect.covers (ln_bbox l) (span_bbox s)) -> ln_bool (line_clip c l) = false.
Proof.
  intros Pc Pl A H. unfold line_clip. rewrite (rcontains_coversb c _ Pc Pl).
  assert (X : forall s, proper s -> apart c s -> coversb c s = false).
  { intros s Ps As. destruct (coversb c s) eqn:E; [|reflexivity]. apply coversb_iff in E. pose proof (shared_covers c s E Ps) as S1. pose proof (shared_apart c s As) as S2. pose proof (area_pos s Ps). lra. }
  rewrite (X _ Pl A). destruct (line_add_all_filter (map (span_clip c) (ln_spans l)) (mkLine rect0 (ln_dir l) [] None false)) as (_ & E).
  assert (F : filter span_bool (map (span_clip c) (ln_spans l)) = []).
  { apply filter_none. intros s Hs. apply in_map_iff in Hs. destruct Hs as (s0 & <- & Hs). destruct (H s0 Hs) as (Ps & Cs). pose proof (apart_sub _ _ _ A Cs) as As. pose proof (shared_apart _ _ As) as S0. destruct s0 as [t|k b]; cbn [span_clip span_bbox] in *.
    - unfold tspan_clip. rewrite (rcontains_coversb c _ Pc Ps), (X _ Ps As), (rintersects_shared c _ Pc Ps). destruct (qlt_spec 0 (shared c (ts_bbox t))); [lra|reflexivity].
    - pose proof (main_box_belongs (GImage k b, []) c Pc Ps) as E'. cbn [fst glyph_box glyph_share] in E'. change (3 # 4) with FACTOR_MAJOR in E'. pose proof (belongs_apart c (GImage k b, []) Pc Ps As) as N. rewrite N in E'. destruct (get_main_bbox b c FACTOR_MAJOR); [rewrite E'|]; reflexivity. }
  rewrite F in E. cbn [fold_left ln_bbox] in E. unfold ln_bool. rewrite E. reflexivity.
Qed.
Definition sorted_out (c : rect) (l : line) : Prop := normal_line l /\ (Rect.covers c (ln_bbox l) \/ apart c (ln_bbox l) /\ forall s, In s (ln_spans l) -> proper (span_bbox s) /\ Rect.covers (ln_bbox l) (span_bbox s)).
Definition held (c : rect) (l : line) : bool := coversb c (ln_bbox l).
Lemma clip_cell c ls : proper c -> (forall l, In l ls -> sorted_out c l) -> filter ln_bool (map (line_clip c) ls) = filter (held c) ls.
Proof.
  intros Pc. induction ls as [|l t IH]; intros H; [reflexivity|]. cbn [map filter]. rewrite IH by (intros x Hx; apply H; right; exact Hx).
  destruct (H l (or_introl eq_refl)) as ((Pl & D & _) & [C|(A & S)]).
  - apply coversb_iff in C. assert (E : line_clip c l = l) by (unfold line_clip; rewrite (rcontains_coversb c _ Pc Pl), C; reflexivity). rewrite E. unfold held. rewrite C. unfold ln_bool. rewrite (GeomProof.proper_truthy _ Pl). reflexivity.
  - rewrite (clip_apart c l Pc Pl A S). unfold held. destruct (coversb c (ln_bbox l)) eqn:E; [|reflexivity]. exfalso. apply coversb_iff in E. pose proof (shared_covers c _ E Pl). pose proof (shared_apart c _ A). pose proof (area_pos _ Pl). lra.
Qed.
(** What a cell receives of a block. *)
Lemma cell_takes c b : proper c -> hulled b -> (forall l, In l (b_lines b) -> sorted_out c l) -> Rect.covers c (b_bbox b) \/ almost_inside c (b_bbox b) = false ->
  filter (held c) (b_lines b) = [] /\ assign_cell c (tb b) = [] \/
  exists b', assign_cell c (tb b) = [tb b'] /\ hulled b' /\ b_lines b' = filter (held c) (b_lines b).
Proof.
  intros Pc Hb H K. assert (Bx : forall l, In l (b_lines b) -> box (ln_bbox l)) by (intros l Hl; destruct (H l Hl) as ((P & D & _) & _); split; assumption).
  destruct (hulled_box b Hb Bx) as ((Pb & Db) & Cv & _ & _). unfold assign_cell, tb. cbn [blk_bbox]. rewrite (contains_almost c _ Pc Pb). destruct K as [K|K].
  - right. exists b. rewrite (almost_covers c _ Pc Pb K). unfold blk_bool. cbn [blk_bbox]. rewrite (GeomProof.proper_truthy _ Pb). split; [reflexivity|]. split; [exact Hb|]. symmetry. apply filter_all. intros l Hl. unfold held. apply coversb_iff. exact (GeomProof.covers_trans _ _ _ K (Cv l Hl)).
  - rewrite K. assert (T : text_block (map (line_clip c) (b_lines b)) = BText (hull (filter (held c) (b_lines b))) (filter (held c) (b_lines b))).
    { rewrite text_block_filter, (clip_cell c _ Pc H). apply text_block_hull. intros l Hl. apply filter_In in Hl. apply GeomProof.proper_truthy. apply (Bx l (proj1 Hl)). }
    destruct (filter (held c) (b_lines b)) as [|x t] eqn:F.
    + left. split; [reflexivity|]. destruct (negb _); [reflexivity|]. rewrite T. reflexivity.
    + right. assert (Hx : In x (b_lines b) /\ held c x = true) by (apply filter_In; rewrite F; left; reflexivity). destruct Hx as (Hx & Cx). unfold held in Cx. apply coversb_iff in Cx.
      assert (Rb : rect_bool (rinter c (b_bbox b)) = true).
      { destruct (rect_bool (rinter c (b_bbox b))) eqn:R; [reflexivity|]. exfalso. pose proof (Bx x Hx) as ((P1 & P2) & _). destruct (Cv x Hx) as (V1 & V2 & V3 & V4). destruct Cx as (C1 & C2 & C3 & C4).
        assert (Sh : 0 < shared c (b_bbox b)).
        { assert (S1 : area (ln_bbox x) <= shared c (b_bbox b)); [|pose proof (area_pos (ln_bbox x) (conj P1 P2)); lra]. destruct Pc as (Pc1 & Pc2). destruct Pb as (Pb1 & Pb2).
          unfold shared, area, rwidth, rheight. set (a := rx1 (ln_bbox x) - rx0 (ln_bbox x)). set (d := ry1 (ln_bbox x) - ry0 (ln_bbox x)).
          assert (A1 : a <= qmax 0 (qmin (rx1 c) (rx1 (b_bbox b)) - qmax (rx0 c) (rx0 (b_bbox b)))) by (unfold a, qmin, qmax; qcases; lra).
          assert (A2 : d <= qmax 0 (qmin (ry1 c) (ry1 (b_bbox b)) - qmax (ry0 c) (ry0 (b_bbox b)))) by (unfold d, qmin, qmax; qcases; lra).
          assert (Pa : 0 < a) by (unfold a; lra). assert (Pd : 0 < d) by (unfold d; lra). revert A1 A2. generalize (qmax 0 (qmin (rx1 c) (rx1 (b_bbox b)) - qmax (rx0 c) (rx0 (b_bbox b)))) (qmax 0 (qmin (ry1 c) (ry1 (b_bbox b)) - qmax (ry0 c) (ry0 (b_bbox b)))). clearbody a d. clear - Pa Pd. intros u v A1 A2. nra. }
        rewrite <- (shared_area _ _ Pc Pb) in Sh. unfold rect_bool in R. apply negb_false_iff in R. rewrite !andb_true_iff, !qeq_iff in R. destruct R as (((R1 & R2) & R3) & R4). unfold area, rwidth, rheight in Sh. rewrite R1, R2, R3, R4 in Sh. lra. }
      rewrite Rb. cbn [negb]. rewrite T. exists (mkBlk false (hull (x :: t)) (x :: t)). unfold blk_bool. cbn [blk_bbox b_bbox b_lines].
      assert (Bh : box (hull (x :: t))) by (apply hull_facts; [discriminate|]; intros l Hl; apply Bx; rewrite <- F in Hl; apply filter_In in Hl; apply Hl).
      rewrite (GeomProof.proper_truthy _ (proj1 Bh)). split; [reflexivity|]. split; [|reflexivity]. split; [reflexivity|]. split; [discriminate|]. exists (x :: t). split; [reflexivity|]. intros l. reflexivity.
Qed.
Definition vsep (a b : tblock) : Prop := ry1 (b_bbox a) < ry0 (b_bbox b) \/ ry1 (b_bbox b) < ry0 (b_bbox a).
Lemma cell_blocks c bs : proper c -> (forall b, In b bs -> hulled b /\ (forall l, In l (b_lines b) -> sorted_out c l) /\ (Rect.covers c (b_bbox b) \/ almost_inside c (b_bbox b) = false)) -> pairwise vsep bs ->
  exists bs', flat_map (assign_cell c) (map tb bs) = map tb bs' /\ lines_in bs' = filter (held c) (lines_in bs) /\ pairwise vsep bs' /\ forall b', In b' bs' -> hulled b' /\ exists b, In b bs /\ ry0 (b_bbox b) <= ry0 (b_bbox b') /\ ry1 (b_bbox b') <= ry1 (b_bbox b).
Proof.
  intros Pc. induction bs as [|b r IH]; intros H V; [exists []; split; [reflexivity|]; split; [reflexivity|]; split; [exact V|intros b' []]|].
  inversion V as [|? ? Vb Vr]; subst. destruct (IH (fun x Hx => H x (or_intror Hx)) Vr) as (bs' & E & L & V' & O). destruct (H b (or_introl eq_refl)) as (Hb & Hl & K).
  cbn [map flat_map]. change (lines_in (b :: r)) with (b_lines b ++ lines_in r). rewrite filter_app.
  destruct (cell_takes c b Pc Hb Hl K) as [(F & A)|(b' & A & Hb' & Lb')]; rewrite A.
  - exists bs'. rewrite F. split; [exact E|]. split; [exact L|]. split; [exact V'|]. intros x Hx. destruct (O x Hx) as (O1 & y & Hy & O2). split; [exact O1|]. exists y. split; [right; exact Hy|exact O2].
  - assert (Bl : forall l, In l (b_lines b) -> box (ln_bbox l)) by (intros l Hx; destruct (Hl l Hx) as ((P1 & D & _) & _); split; assumption).
    assert (Bl' : forall l, In l (b_lines b') -> In l (b_lines b) /\ box (ln_bbox l)) by (intros l Hx; rewrite Lb' in Hx; apply filter_In in Hx; split; [apply Hx|apply Bl, Hx]).
    destruct (hulled_box b Hb Bl) as (_ & Cv & _ & _). destruct (hulled_box b' Hb' (fun l Hx => proj2 (Bl' l Hx))) as (_ & _ & (t & Ht & Et) & (u & Hu & Eu)).
    destruct (Cv t (proj1 (Bl' t Ht))) as (_ & T1 & _ & _). destruct (Cv u (proj1 (Bl' u Hu))) as (_ & _ & _ & U1).
    exists (b' :: bs'). cbn [map app]. rewrite E. split; [reflexivity|]. split; [change (lines_in (b' :: bs')) with (b_lines b' ++ lines_in bs'); rewrite Lb', L; reflexivity|]. split.
    + constructor; [|exact V']. intros x Hx. destruct (O x Hx) as (_ & y & Hy & Y1 & Y2). specialize (Vb y Hy). unfold vsep in *. lra.
    + intros x [<-|Hx]; [split; [exact Hb'|]; exists b; split; [left; reflexivity|lra]|]. destruct (O x Hx) as (O1 & y & Hy & O2). split; [exact O1|]. exists y. split; [right; exact Hy|exact O2].
Qed.
Lemma cells_any cells l : match l with [] => map (fun _ : rect => []) cells | y :: l0 => assign_cells cells (y :: l0) end = assign_cells cells l.
Proof. destruct l; [|reflexivity]. unfold assign_cells. apply map_ext. intros c. destruct (rect_bool c); reflexivity. Qed.
(** The only table: blocks are inside or outside. *)
Lemma assign_frame F bs : proper F -> (forall b, In b bs -> proper (b_bbox b) /\ (Rect.covers F (b_bbox b) \/ apart F (b_bbox b))) ->
  assign_all (map tb bs) [F] = Some ([map tb (filter (fun b => coversb F (b_bbox b)) bs)], map (fun b => text_block (b_lines b)) (filter (fun b => negb (coversb F (b_bbox b))) bs)).
Proof.
  intros PF. induction bs as [|b r IH]; intros H; [reflexivity|]. cbn [map assign_all blk_lines tb]. rewrite IH by (intros x Hx; apply H; right; exact Hx). destruct (H b (or_introl eq_refl)) as (Pb & K).
  unfold tb at 1. cbn [assign_block blk_bbox]. rewrite (rcontains_coversb F _ PF Pb). cbn [filter]. destruct (coversb F (b_bbox b)) eqn:E; [reflexivity|].
  assert (I : rintersects F (b_bbox b) = false).
  { rewrite (rintersects_shared F _ PF Pb). destruct K as [K|K]; [apply coversb_iff in K; congruence|]. pose proof (shared_apart _ _ K). destruct (qlt_spec 0 (shared F (b_bbox b))); [lra|reflexivity]. }
  rewrite I. reflexivity.
Qed.
