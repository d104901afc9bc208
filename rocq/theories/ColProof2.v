(** A page of two columns is parsed to a table with the columns in its cells. *)
From Verif Require GeomProof TableProps TableSpec TableProof FmtProof5 TabProof7.
From Verif Require Import AssignSpec AssignProof InterProof GraphProof TextProof PySort FlowModel FlowSpec FlowProof FlowProof2 FlowProps LayoutSpec LayoutProof.
From Verif Require Import CleanSpec CleanProof CleanProof2 CleanProof3 CleanProps.
From Verif Require Import TabSpec GridProof5 GridProof6 GridProof7 LayoutProof2.
From Verif Require Import CleanModel CleanSpec FlowModel FlowSpec LayoutModel WholeModel WholeSpec WholeProof WholeProof2 WholeProof3 WholeProof4 WholeProof5 WholeProof6 PlaceSpec PlaceProof3 TabProof TabProof2 TabProof3 TabProof4 TabProof5 TabProof6 TabProof8 ColSpec ColProof.
From Verif Require PageModel ShapeModel.
From Verif Require Import CleanModel.
From Coq Require Import Lia Lqa Permutation Sorting.Sorted.
Notation length := List.length.
Notation pairwise := BorderProof3.pairwise.
Open Scope Q_scope.

Lemma part_outside c b k : proper c -> proper b -> 0 <= k -> (qmin (rx1 c) (rx1 b) - qmax (rx0 c) (rx0 b) <= (945 # 1000) * (rx1 b - rx0 b)) -> almost_inside c b = false.
Proof.
  intros (Pc1 & Pc2) (Pb1 & Pb2) _ H. unfold almost_inside. destruct (qlt_spec ((945 # 1000) * Rect.area b) (AssignSpec.shared c b)) as [L|L]; [exfalso|reflexivity].
  unfold AssignSpec.shared, Rect.area, rwidth, rheight in L. set (x := qmin (rx1 c) (rx1 b) - qmax (rx0 c) (rx0 b)) in *.
  assert (Y : qmax 0 (qmin (ry1 c) (ry1 b) - qmax (ry0 c) (ry0 b)) <= ry1 b - ry0 b) by (unfold qmin, qmax; qcases; lra).
  assert (Y0 : 0 <= qmax 0 (qmin (ry1 c) (ry1 b) - qmax (ry0 c) (ry0 b))) by (unfold qmax; qcases; lra).
  assert (Z : qmax 0 x <= (945 # 1000) * (rx1 b - rx0 b)) by (unfold qmax; qcases; lra).
  revert L Y Y0 Z. generalize (qmax 0 (qmin (ry1 c) (ry1 b) - qmax (ry0 c) (ry0 b))) (qmax 0 x). intros y z. assert (0 < ry1 b - ry0 b) by lra. assert (0 < rx1 b - rx0 b) by lra. revert H0 H1. generalize (ry1 b - ry0 b) (rx1 b - rx0 b). clear. intros h w Hh Hw L Y Y0 Z. nra.
Qed.

Section Level.
Variable order : list nat -> list nat.
Variable rorder : list (Q * Q) -> list (Q * Q).
Variable ids : nat -> nat.
Variable st : settings.
Hypothesis Ho : forall l, Permutation l (order l).
Hypothesis Tol : 0 < flow_tol st.
Variables (left right : list tblock) (area : rect) (bs : list tblock).
Let texts := left ++ right.
Hypothesis Pa : Forall paragraph texts.
Hypothesis Ot : ForallOrdPairs other_block texts.
Hypothesis Tl : top_down (map ln_bbox (lines_in left)).
Hypothesis Tr : top_down (map ln_bbox (lines_in right)).
Hypothesis Spn : forall l s, In l (lines_in texts) -> In s (ln_spans l) -> proper (span_bbox s).
Hypothesis Hal : in_halves area left right.
Hypothesis Pl : Permutation (lines_in bs) (lines_in texts).
Hypothesis Hb : forall b, In b bs -> hulled b.
Hypothesis V : pairwise vsep bs.
Hypothesis Bal : forall b, In b bs -> balanced area (b_bbox b).

Lemma text_line l : In l (lines_in texts) -> flat_line l /\ ln_pid l <> None /\ box (ln_bbox l) /\ forall s, In s (ln_spans l) -> proper (span_bbox s) /\ Rect.covers (ln_bbox l) (span_bbox s).
Proof.
  intros Hl. pose proof Hl as Hl'. apply in_flat_map in Hl. destruct Hl as (t & Ht & Hl). rewrite Forall_forall in Pa. destruct (Pa t Ht) as (_ & (_ & _ & Cv) & _ & (p & Hp) & Fl). pose proof (Fl l Hl) as Ff. split; [exact Ff|]. split; [rewrite (Hp l Hl); discriminate|].
  destruct Ff as ((P1 & D1 & _) & _). split; [split; assumption|]. intros s Hs. split; [apply (Spn l s Hl' Hs)|]. destruct (Cv l Hl) as (_ & Cs). apply Cs, Hs.
Qed.
Lemma col_line b l : In b bs -> In l (b_lines b) -> In l (lines_in texts).
Proof. intros Hx Hl. eapply Permutation_in; [exact Pl|]. apply in_flat_map. exists b. split; assumption. Qed.
Lemma side_line l : In l (lines_in texts) -> Rect.covers area (ln_bbox l) /\ (In l (lines_in left) /\ TableSpec.in_left area (ln_bbox l) \/ In l (lines_in right) /\ TableSpec.in_right area (ln_bbox l)).
Proof.
  intros Hl. unfold texts in Hl. rewrite lines_in_app in Hl. destruct Hal as (_ & _ & _ & L & R). apply in_app_or in Hl. destruct Hl as [Hl|Hl]; [destruct (L l Hl)|destruct (R l Hl)]; tauto.
Qed.
Lemma col_box b : In b bs -> box (b_bbox b) /\ (forall l, In l (b_lines b) -> Rect.covers (b_bbox b) (ln_bbox l)).
Proof. intros Hx. destruct (hulled_box b (Hb b Hx)) as (B & C & _); [intros l Hl; apply (text_line l (col_line b l Hx Hl))|]. split; assumption. Qed.
Lemma some_line ts : ts <> [] -> (forall t, In t ts -> In t texts) -> exists l, In l (lines_in ts).
Proof.
  intros N I. destruct ts as [|t ts]; [congruence|]. rewrite Forall_forall in Pa. destruct (Pa t (I t (or_introl eq_refl))) as (_ & _ & Ne & _). destruct (b_lines t) as [|l ls] eqn:E; [congruence|]. exists l. unfold lines_in. cbn [flat_map]. rewrite E. left. reflexivity.
Qed.

(** A cell that covers the lines of one column and is apart from those of the other. *)
Lemma column_ready (b : bcell) mine other : half b -> mine ++ other = texts \/ other ++ mine = texts ->
  (forall l, In l (lines_in mine) -> Rect.covers (bc_bbox b) (ln_bbox l)) -> (forall l, In l (lines_in other) -> apart (bc_bbox b) (ln_bbox l)) ->
  (forall x, In x bs -> Rect.covers (bc_bbox b) (b_bbox x) \/ almost_inside (bc_bbox b) (b_bbox x) = false) -> top_down (map ln_bbox (lines_in mine)) ->
  cell_ready (map tb bs) (Some b) mine.
Proof.
  intros (_ & _ & _ & (Pc & Dc)) Et Cm Ao Al Td.
  assert (Im : forall l, In l (lines_in mine) -> In l (lines_in texts)) by (intros l Hl; destruct Et as [<-|<-]; rewrite lines_in_app; apply in_or_app; auto).
  assert (Io : forall l, In l (lines_in other) -> In l (lines_in texts)) by (intros l Hl; destruct Et as [<-|<-]; rewrite lines_in_app; apply in_or_app; auto).
  assert (Hc : forall l, In l (lines_in texts) -> In l (lines_in mine) \/ In l (lines_in other)) by (intros l Hl; destruct Et as [<-|<-]; rewrite lines_in_app in Hl; apply in_app_or in Hl; tauto).
  split; [destruct Et as [<-|<-]; apply Forall_app in Pa; apply Pa|]. split; [destruct Et as [<-|<-]; apply fop_app_l in Ot; apply Ot|]. split; [apply top_down_lines, Td|].
  cbn [info_box]. split; [apply GeomProof.proper_truthy, Pc|].
  destruct (cell_blocks (bc_bbox b) bs Pc) as (bs' & A1 & A2 & A3 & A4).
  - intros x Hx. split; [apply Hb, Hx|]. split; [|apply Al, Hx]. intros l Hl. pose proof (col_line x l Hx Hl) as It. destruct (text_line l It) as ((Nl & _) & _ & _ & Sp). split; [exact Nl|]. destruct (Hc l It) as [I|I]; [left; apply Cm, I|right; split; [apply Ao, I|exact Sp]].
  - exact V.
  - exists bs'. split; [exact A1|]. split; [|split; [exact A3|intros x Hx; apply (A4 x Hx)]]. rewrite A2. eapply Permutation_trans; [apply TextProof.filter_perm, Pl|].
    assert (E1 : filter (held (bc_bbox b)) (lines_in mine) = lines_in mine) by (apply filter_all; intros l Hl; apply coversb_iff, Cm, Hl).
    assert (E2 : filter (held (bc_bbox b)) (lines_in other) = []).
    { apply filter_none. intros l Hl. unfold held. destruct (coversb (bc_bbox b) (ln_bbox l)) eqn:E; [|reflexivity]. exfalso. apply coversb_iff in E. destruct (text_line l (Io l Hl)) as (_ & _ & (P1 & _) & _). pose proof (shared_covers _ _ E P1). pose proof (shared_apart _ _ (Ao l Hl)). pose proof (area_pos _ P1). lra. }
    destruct Et as [<-|<-]; rewrite lines_in_app, filter_app, E1, E2, ?app_nil_r; apply Permutation_refl.
Qed.

Theorem columns_level fuel : exists ft b0 b1 h n,
  layout_parse order rorder ids st (S (S fuel)) true (LayoutModel.mkW [] 0) area (map LText bs) no_shapes = Ok (LayoutModel.mkW [] n, [LTable ft [done (Some b0) left; done (Some b1) right]]) /\
  half b0 /\ half b1 /\ 2 < h /\ tab_rows ft = [(h, 2%nat)] /\ tab_lattice ft = false /\ box (tab_box ft).
Proof.
  pose proof Hal as (Nl & Nr & Wd & HL & HR).
  destruct (some_line left Nl) as (l0 & I0); [intros t Ht; apply in_or_app; left; exact Ht|]. destruct (some_line right Nr) as (l1 & I1); [intros t Ht; apply in_or_app; right; exact Ht|].
  set (elems := map ln_bbox (lines_in bs)).
  assert (Ie : forall e, In e elems <-> exists l, In l (lines_in texts) /\ e = ln_bbox l).
  { intros e. unfold elems. rewrite in_map_iff. split; intros (l & A & B); exists l; [split; [eapply Permutation_in; [exact Pl|exact B]|symmetry; exact A]|split; [symmetry; exact B|eapply Permutation_in; [apply Permutation_sym, Pl|exact A]]]. }
  assert (IL : forall l, In l (lines_in left) -> In l (lines_in texts)) by (intros l Hl; unfold texts; rewrite lines_in_app; apply in_or_app; left; exact Hl).
  assert (IR : forall l, In l (lines_in right) -> In l (lines_in texts)) by (intros l Hl; unfold texts; rewrite lines_in_app; apply in_or_app; right; exact Hl).
  destruct (columns_table area elems) as (sr & b0 & b1 & h & Pt & To & H0 & H1 & Hh & X0 & X1 & Cv0 & Cv1 & _).
  { intros e He. apply Ie in He. destruct He as (l & Hl & ->). destruct (text_line l Hl) as (_ & _ & (P1 & D1) & _). destruct (side_line l Hl) as (Ca & Cs). split; [exact P1|]. split; [exact D1|]. split; [exact Ca|]. unfold TableSpec.in_column. tauto. }
  { exact Wd. }
  { exists (ln_bbox l0). split; [apply Ie; exists l0; auto|apply (HL l0 I0)]. }
  { exists (ln_bbox l1). split; [apply Ie; exists l1; auto|apply (HR l1 I1)]. }
  set (rows := [mkBrow h [Some b0; Some b1]]) in *. pose proof H0 as (Mg0 & Wd0 & Bg0 & Bx0). pose proof H1 as (Mg1 & Wd1 & Bg1 & Bx1).
  destruct (table_hull h b0 b1 Bx0 Bx1) as (_ & (PF & DF) & F0 & F1). fold rows in PF, DF, F0, F1. set (F := rows_box rows) in *. set (ft := mkTab F [(h, 2%nat)] false).
  assert (CL : forall l, In l (lines_in left) -> Rect.covers (bc_bbox b0) (ln_bbox l)) by (intros l Hl; apply Cv0; [apply Ie; exists l; auto|apply (HL l Hl)]).
  assert (CR : forall l, In l (lines_in right) -> Rect.covers (bc_bbox b1) (ln_bbox l)) by (intros l Hl; apply Cv1; [apply Ie; exists l; auto|apply (HR l Hl)]).
  assert (Fx : forall x y, decimal 10 x -> x <= y -> x <= round1 y) by (intros x y D L; eapply Qle_trans; [|apply round_p_mono; exact L]; rewrite (round_p_fixed 10 x D); lra).
  assert (Fy : forall x y, decimal 10 x -> y <= x -> round1 y <= x) by (intros x y D L; eapply Qle_trans; [apply round_p_mono; exact L|]; rewrite (round_p_fixed 10 x D); lra).
  assert (LtX : forall r, rect_decimal r -> TableSpec.in_left area r -> rx1 r <= rx0 (bc_bbox b1)) by (intros r (_ & _ & D & _) I; unfold TableSpec.in_left in I; pose proof (Fx _ (TableSpec.center area) D ltac:(lra)); lra).
  assert (GtX : forall r, rect_decimal r -> TableSpec.in_right area r -> rx1 (bc_bbox b0) <= rx0 r) by (intros r (D & _) I; unfold TableSpec.in_right in I; pose proof (Fy _ (TableSpec.center area) D ltac:(lra)); lra).
  assert (CF : forall b, In b bs -> Rect.covers F (b_bbox b)).
  { intros b Hx. apply hulled_covers; [apply Hb, Hx|intros l Hl; apply (text_line l (col_line b l Hx Hl))|]. intros l Hl. destruct (side_line l (col_line b l Hx Hl)) as (_ & [(I & _)|(I & _)]); [apply (GeomProof.covers_trans _ _ _ F0), CL, I|apply (GeomProof.covers_trans _ _ _ F1), CR, I]. }
  assert (Al : forall b, In b bs -> (Rect.covers (bc_bbox b0) (b_bbox b) \/ almost_inside (bc_bbox b0) (b_bbox b) = false) /\ (Rect.covers (bc_bbox b1) (b_bbox b) \/ almost_inside (bc_bbox b1) (b_bbox b) = false)).
  { intros b Hx. destruct (col_box b Hx) as ((Pb & Db) & Cb). destruct (Bal b Hx) as [B|[B|B]].
    - assert (All : forall l, In l (b_lines b) -> In l (lines_in left)).
      { intros l Hl. pose proof (col_line b l Hx Hl) as It. destruct (side_line l It) as (_ & [(I & _)|(_ & I)]); [exact I|exfalso]. destruct (text_line l It) as (_ & _ & ((P1 & _) & _) & _). destruct (Cb l Hl) as (_ & _ & C3 & _). unfold TableSpec.in_left, TableSpec.in_right in *. lra. }
      split; [left; apply hulled_covers; [apply Hb, Hx|intros l Hl; apply (text_line l (col_line b l Hx Hl))|intros l Hl; apply CL, All, Hl]|right; apply almost_apart; [apply Bx1|exact Pb|]]. right. left. apply LtX; assumption.
    - assert (All : forall l, In l (b_lines b) -> In l (lines_in right)).
      { intros l Hl. pose proof (col_line b l Hx Hl) as It. destruct (side_line l It) as (_ & [(_ & I)|(I & _)]); [exfalso|exact I]. destruct (text_line l It) as (_ & _ & ((P1 & _) & _) & _). destruct (Cb l Hl) as (C1 & _). unfold TableSpec.in_left, TableSpec.in_right in *. lra. }
      split; [right; apply almost_apart; [apply Bx0|exact Pb|]; left; apply GtX; assumption|left; apply hulled_covers; [apply Hb, Hx|intros l Hl; apply (text_line l (col_line b l Hx Hl))|intros l Hl; apply CR, All, Hl]].
    - cbv zeta in B. destruct B as (B1 & B2). pose proof (round1_bound (TableSpec.center area)) as Rb. pose proof Pb as (Pb1 & _).
      split; right; apply (part_outside _ _ 0); [apply Bx0|exact Pb|lra| |apply Bx1|exact Pb|lra|]; unfold qmin, qmax; qcases; lra. }
  assert (Rdy : Forall2 (cell_ready (map tb bs)) [Some b0; Some b1] [left; right]).
  { constructor; [|constructor; [|constructor]].
    - apply (column_ready b0 left right H0 (or_introl eq_refl) CL); [|intros x Hx; apply (Al x Hx)|exact Tl]. intros l Hl. left. apply GtX; [apply (text_line l (IR l Hl))|apply (HR l Hl)].
    - apply (column_ready b1 right left H1 (or_intror eq_refl) CR); [|intros x Hx; apply (Al x Hx)|exact Tr]. intros l Hl. right. left. apply LtX; [apply (text_line l (IL l Hl))|apply (HL l Hl)]. }
  destruct (filled order rorder ids st Ho Tol (map tb bs) [Some b0; Some b1] [left; right] Rdy 0) as (lcs & k1 & Fc & Pc).
  assert (FlT : forall k bs, flat k (map LText bs) = map FText bs) by (clear; intros k bs; revert k; induction bs as [|t l IH]; intros k; [reflexivity|cbn [map flat]; rewrite IH; reflexivity]).
  assert (TbT : forall bs, tabs (map LText bs) = []) by (clear; intros bs; unfold tabs; induction bs as [|t l IH]; [reflexivity|exact IH]).
  set (w := LayoutModel.mkW [] 0).
  assert (Lt : layout_table w area (map LText bs) no_shapes = Ok (w, [(ft, [Some b0; Some b1])])).
  { unfold layout_table. assert (Ls : forall bs, flat_map LayoutModel.lines_of (map LText bs) = lines_in bs) by (clear; induction bs as [|t r IH]; [reflexivity|cbn [map flat_map LayoutModel.lines_of]; rewrite IH; reflexivity]).
    rewrite Ls. cbn [no_shapes ls_all shapes_at map]. rewrite app_nil_r. fold elems. rewrite (filter_all rect_bool) by (intros e He; apply Ie in He; destruct He as (l & Hl & ->); apply GeomProof.proper_truthy; apply (text_line l Hl)).
    rewrite Pt. unfold finish. rewrite To. fold rows. cbv zeta. fold F. rewrite (GeomProof.proper_truthy F PF). reflexivity. }
  assert (Pla : place_tables ids w (map LText bs) no_shapes [(ft, [Some b0; Some b1])] = Ok (LayoutModel.mkW [] k1, [LTable ft lcs], no_shapes)).
  { unfold place_tables. rewrite TbT, FlT, map_map. change (fun x => to_block (FText x)) with tb. cbn [map fst snd List.length]. unfold assign_to_tables. cbn [map ta_bbox]. change (tab_box ft) with F.
    rewrite (assign_frame F bs PF) by (intros b Hx; split; [apply (col_box b Hx)|left; apply CF, Hx]).
    assert (E1 : filter (fun b => coversb F (b_bbox b)) bs = bs) by (apply filter_all; intros b Hx; apply coversb_iff, CF, Hx). assert (E2 : filter (fun b => negb (coversb F (b_bbox b))) bs = []) by (apply filter_none; intros b Hx; apply negb_false_iff, coversb_iff, CF, Hx).
    rewrite E1, E2. cbn [combine map fst snd ta_cells number_tables ta_bbox]. pose proof (cells_any [info_box (Some b0); info_box (Some b1)] (map tb bs)) as Any. cbn [map] in Any. rewrite Any.
    assert (Eco : assign_cells [info_box (Some b0); info_box (Some b1)] (map tb bs) = contents_of (map tb bs) [Some b0; Some b1]) by reflexivity.
    rewrite Eco. cbn [fill_tables fst snd hd tl]. change (w_next w) with 0%nat. rewrite Fc. cbn [List.length seq combine map fst snd no_shapes ls_all].
    cbn [app filter]. unfold blk_bool. cbn [blk_bbox]. rewrite (GeomProof.proper_truthy F PF). reflexivity. }
  assert (Ffs : forall f, In f [FTable 0 F] -> f = FTable 0 F) by (intros f [<-|[]]; reflexivity).
  assert (Sm : stream order rorder st (LayoutModel.mkW [] k1) area [LTable ft lcs] no_shapes = Ok (LayoutModel.mkW [] k1, [])).
  { unfold stream. change (flat 0 [LTable ft lcs]) with [FTable 0 F]. rewrite (C65_plain_text order); [reflexivity|exact Ho| | |].
    - intros f Hf. rewrite (Ffs f Hf). split; [exact PF|]. unfold sub_lines. cbn [filter]. assert (E : ln_bool (table_line F) = true); [|rewrite E; discriminate]. unfold ln_bool, table_line. cbn [ln_bbox].
      apply GeomProof.proper_truthy. apply (GeomProof.proper_req F (rround F)); [|exact PF]. apply GeomProof.req_sym, rround_fixed. exact DF.
    - intros f Hf. rewrite (Ffs f Hf). split; [|intros (s & [] & _)]. intros (t' & E & _). discriminate E.
    - apply fsep_in_line; [intros f Hf; rewrite (Ffs f Hf); reflexivity|]. constructor; [intros y []|constructor]. }
  assert (Sbk : forall ids', split_back order ids' (flow_tol st) (separate st) [FTable 0 F] = Some [FTable 0 F]).
  { intros ids'. apply (split_mixed order ids' (flow_tol st) (separate st) [FTable 0 F] [] [FTable 0 F] Ho Tol); try constructor; try (constructor; fail).
    - intros b [].
    - intros f [<-|[]]. unfold f_bool. cbn [f_box]. apply GeomProof.proper_truthy, PF. }
  set (w2 := LayoutModel.mkW [] (k1 + 1)).
  destruct (Pc fuel w2) as (n & En). cbn [combine map fst snd] in En.
  exists ft, b0, b1, h, n. split; [|split; [exact H0|split; [exact H1|split; [exact Hh|split; [reflexivity|split; [reflexivity|split; assumption]]]]]].
  cbn [layout_parse]. fold w. unfold level. rewrite Lt. cbn [bind fst snd]. rewrite Pla. cbn [bind fst snd].
  assert (La : lattice order st (LayoutModel.mkW [] k1) no_shapes = Ok (LayoutModel.mkW [] k1, [])) by reflexivity. rewrite La. cbn [bind fst snd place_tables]. rewrite Sm. cbn [bind fst snd place_tables].
  change (flat 0 [LTable ft lcs]) with [FTable 0 F]. rewrite Sbk. cbn [bind fst snd w_shapes w_next List.length]. fold w2.
  assert (Bk : flat_map (back (tabs [LTable ft lcs])) [FTable 0 F] = [LTable ft lcs]) by reflexivity. rewrite Bk. unfold text_format. change (style_shapes w2 no_shapes) with (@nil nat). cbn [format_blocks fst snd].
  exact (parse_one _ w2 ft lcs _ _ [] [] En).
Qed.
End Level.
