(** The level of a page of two columns between full-width paragraphs. *)
From Verif Require GeomProof TableProps TableSpec TableProof FmtProof5 TabProof7.
From Verif Require Import AssignSpec AssignProof InterProof GraphProof TextProof PySort FlowModel FlowSpec FlowProof FlowProof2 FlowProps LayoutSpec LayoutProof.
From Verif Require Import CleanSpec CleanProof CleanProof2 CleanProof3 CleanProps.
From Verif Require Import TabSpec GridProof5 GridProof6 GridProof7 LayoutProof2.
From Verif Require Import CleanModel CleanSpec FlowModel FlowSpec LayoutModel WholeModel WholeSpec WholeProof WholeProof2 WholeProof3 WholeProof4 WholeProof5 WholeProof6 PlaceSpec PlaceProof3 TabProof TabProof2 TabProof3 TabProof4 TabProof5 TabProof6 TabProof8 ColSpec ColProof ColProof2 HeadSpec.
From Verif Require PageModel ShapeModel.
From Verif Require Import CleanModel.
From Coq Require Import Lia Lqa Permutation Sorting.Sorted.
Notation length := List.length.
Notation pairwise := BorderProof3.pairwise.
Open Scope Q_scope.

Lemma hull_least rs c : rs <> [] -> (forall r, In r rs -> box r) -> (forall r, In r rs -> Rect.covers c r) -> Rect.covers c (fold_left union_bbox rs rect0).
Proof.
  intros N B C. assert (E : fold_left union_bbox rs rect0 = hull (map as_line rs)).
  { unfold hull. generalize rect0. clear. induction rs as [|r t IH]; intros z; [reflexivity|]. cbn [map fold_left]. apply IH. }
  destruct (hull_sides (map as_line rs)) as (_ & ((l1 & H1 & E1) & _) & ((l2 & H2 & E2) & _) & ((l3 & H3 & E3) & _) & ((l4 & H4 & E4) & _)); [destruct rs; [congruence|discriminate]|intros l Hl; apply in_map_iff in Hl; destruct Hl as (r & <- & Hr); apply B, Hr|].
  rewrite E. assert (K : forall l, In l (map as_line rs) -> Rect.covers c (ln_bbox l)) by (intros l Hl; apply in_map_iff in Hl; destruct Hl as (r & <- & Hr); apply C, Hr).
  apply K in H1, H2, H3, H4. unfold Rect.covers in *. lra.
Qed.
Lemma table_least h b0 b1 c : box (bc_bbox b0) -> box (bc_bbox b1) -> Rect.covers c (bc_bbox b0) -> Rect.covers c (bc_bbox b1) -> Rect.covers c (rows_box [mkBrow h [Some b0; Some b1]]).
Proof.
  intros B0 B1 C0 C1. destruct (boxes_hull [bc_bbox b0; bc_bbox b1] ltac:(discriminate)) as (Bu & _); [intros r [<-|[<-|[]]]; assumption|].
  apply (hull_least [row_bbox [Some b0; Some b1]] c ltac:(discriminate)); [intros r [<-|[]]; exact Bu|intros r [<-|[]]]. apply (hull_least [bc_bbox b0; bc_bbox b1] c ltac:(discriminate)); intros r [<-|[<-|[]]]; assumption.
Qed.
(** The elements across the middle do not matter if they are above or below the columns. *)
Lemma layout_columns area elems : (forall e, In e elems -> proper e /\ rect_decimal e) -> (exists e, In e elems /\ TableSpec.in_column area e) ->
  (forall e, In e elems -> TableSpec.spanning area e -> TableSpec.above_columns area elems e \/ TableSpec.below_columns area elems e) ->
  page_layout area elems = page_layout area (column_elements area elems) /\ forall e, In e (column_elements area elems) <-> In e elems /\ TableSpec.in_column area e.
Proof.
  intros H Ex F.
  assert (Ie : forall e, In e (column_elements area elems) <-> In e elems /\ TableSpec.in_column area e) by (intros e; unfold column_elements; rewrite filter_In, orb_true_iff, !qlt_iff; reflexivity).
  assert (El : column_elements area (column_elements area elems) = column_elements area elems).
  { unfold column_elements at 1. apply TextProof.filter_all. intros e He. apply Ie in He. destruct He as (_ & He). apply orb_true_iff. rewrite !qlt_iff. exact He. }
  assert (Sp : span_elements area (column_elements area elems) = []).
  { unfold span_elements. apply TextProof.filter_none. intros e He. apply Ie in He. destruct He as (_ & C). change (page_center area) with (TableSpec.center area). unfold TableSpec.in_column, TableSpec.in_left, TableSpec.in_right in C. apply andb_false_iff. destruct C; [left|right]; (match goal with |- ?x = false => destruct x eqn:X; [exfalso; apply qle_iff in X; lra|reflexivity] end). }
  split; [|exact Ie]. unfold page_layout. rewrite El, Sp. cbn [forallb]. pose proof (TableProof.span_free area elems H Ex) as Sf. cbv zeta in Sf. rewrite (proj2 Sf F). reflexivity.
Qed.
Lemma boxes_range elems lo hi : elems <> [] -> (forall e, In e elems -> proper e /\ rect_decimal e) -> (forall e, In e elems -> lo <= ry0 e /\ ry1 e <= hi) -> lo <= ry0 (boxes_bbox elems) /\ ry1 (boxes_bbox elems) <= hi.
Proof.
  intros N H R. destruct (TableProof.boxes_cover elems N H) as (_ & _ & Cv & Mn). cbv zeta in *. set (u := boxes_bbox elems) in *.
  destruct (Mn (mkRect (rx0 u) lo (rx1 u) hi)) as (_ & A & _ & B); [|cbn [ry0 ry1] in A, B; split; assumption]. intros e He. destruct (Cv e He) as (C1 & _ & C3 & _). destruct (R e He). repeat split; assumption.
Qed.

Section Level.
Variable order : list nat -> list nat.
Variable rorder : list (Q * Q) -> list (Q * Q).
Variable ids : nat -> nat.
Variable st : settings.
Hypothesis Ho : forall l, Permutation l (order l).
Hypothesis Tol : 0 < flow_tol st.
Variables (above left right below : list tblock) (area : rect) (bs : list tblock).
Let cols := left ++ right.
Let texts := above ++ cols ++ below.
Hypothesis Pa : Forall paragraph texts.
Hypothesis Ot : ForallOrdPairs other_block texts.
Hypothesis Ta : top_down (map ln_bbox (lines_in above)).
Hypothesis Tl : top_down (map ln_bbox (lines_in left)).
Hypothesis Tr : top_down (map ln_bbox (lines_in right)).
Hypothesis Tb : top_down (map ln_bbox (lines_in below)).
Hypothesis Sa : forall t u, In t above -> In u cols -> ry1 (b_bbox t) + 6 < ry0 (b_bbox u).
Hypothesis Sb : forall t u, In t below -> In u cols -> ry1 (b_bbox u) + 6 < ry0 (b_bbox t).
Hypothesis Spn : forall l s, In l (lines_in cols) -> In s (ln_spans l) -> proper (span_bbox s).
Hypothesis Hal : in_halves area left right.
Hypothesis Acr : across_lines area (above ++ below).
Hypothesis Pl : Permutation (lines_in bs) (lines_in texts).
Hypothesis Hb : forall b, In b bs -> hulled b.
Hypothesis V : pairwise vsep bs.
Hypothesis Hz : forall b, In b bs -> (forall l, In l (b_lines b) -> In l (lines_in above)) \/ (forall l, In l (b_lines b) -> In l (lines_in cols)) \/ (forall l, In l (b_lines b) -> In l (lines_in below)).
Hypothesis Bal : forall b, In b bs -> (forall l, In l (b_lines b) -> In l (lines_in cols)) -> balanced area (b_bbox b).

Lemma h_line l : In l (lines_in texts) -> flat_line l /\ ln_pid l <> None /\ box (ln_bbox l) /\ exists t, In t texts /\ In l (b_lines t) /\ Rect.covers (b_bbox t) (ln_bbox l).
Proof.
  intros Hl. apply in_flat_map in Hl. destruct Hl as (t & Ht & Hl). pose proof Pa as Pa'. rewrite Forall_forall in Pa'. destruct (Pa' t Ht) as (_ & (_ & _ & Cv) & _ & (p & Hp) & Fl). pose proof (Fl l Hl) as Ff. split; [exact Ff|]. split; [rewrite (Hp l Hl); discriminate|].
  destruct Ff as ((P1 & D1 & _) & _). split; [split; assumption|]. exists t. split; [exact Ht|]. split; [exact Hl|]. apply (Cv l Hl).
Qed.
Lemma in_zone ts l : In l (lines_in ts) -> (forall t, In t ts -> In t texts) -> box (ln_bbox l) /\ exists t, In t ts /\ In l (b_lines t) /\ Rect.covers (b_bbox t) (ln_bbox l).
Proof.
  intros Hl I. apply in_flat_map in Hl. destruct Hl as (t & Ht & Hl). pose proof Pa as Pa'. rewrite Forall_forall in Pa'. destruct (Pa' t (I t Ht)) as (_ & (_ & _ & Cv) & _ & _ & Fl). destruct (Fl l Hl) as ((P1 & D1 & _) & _). split; [split; assumption|]. exists t. split; [exact Ht|]. split; [exact Hl|apply (Cv l Hl)].
Qed.
Lemma i_above t : In t above -> In t texts. Proof. intros H. apply in_or_app. left. exact H. Qed.
Lemma i_cols t : In t cols -> In t texts. Proof. intros H. apply in_or_app. right. apply in_or_app. left. exact H. Qed.
Lemma i_below t : In t below -> In t texts. Proof. intros H. apply in_or_app. right. apply in_or_app. right. exact H. Qed.
Lemma lines_texts l : In l (lines_in texts) <-> In l (lines_in above) \/ In l (lines_in cols) \/ In l (lines_in below).
Proof. unfold texts. rewrite !lines_in_app, !in_app_iff. reflexivity. Qed.
Lemma above_line l k : In l (lines_in above) -> In k (lines_in cols) -> ry1 (ln_bbox l) + 6 < ry0 (ln_bbox k).
Proof.
  intros Hl Hk. destruct (in_zone above l Hl i_above) as (_ & t & Ht & _ & (_ & _ & _ & C4)). destruct (in_zone cols k Hk i_cols) as (_ & u & Hu & _ & (_ & C2 & _)). specialize (Sa t u Ht Hu). lra.
Qed.
Lemma below_line l k : In l (lines_in below) -> In k (lines_in cols) -> ry1 (ln_bbox k) + 6 < ry0 (ln_bbox l).
Proof.
  intros Hl Hk. destruct (in_zone below l Hl i_below) as (_ & t & Ht & _ & (_ & C2 & _)). destruct (in_zone cols k Hk i_cols) as (_ & u & Hu & _ & (_ & _ & _ & C4)). specialize (Sb t u Ht Hu). lra.
Qed.
Lemma h_block b l : In b bs -> In l (b_lines b) -> In l (lines_in texts).
Proof. intros Hx Hl. eapply Permutation_in; [exact Pl|]. apply in_flat_map. exists b. split; assumption. Qed.
Lemma h_box b : In b bs -> box (b_bbox b) /\ (forall l, In l (b_lines b) -> Rect.covers (b_bbox b) (ln_bbox l)) /\
  (exists l, In l (b_lines b) /\ ry0 (b_bbox b) == ry0 (ln_bbox l)) /\ (exists l, In l (b_lines b) /\ ry1 (b_bbox b) == ry1 (ln_bbox l)).
Proof. intros Hx. apply (hulled_box b (Hb b Hx)). intros l Hl. apply (h_line l (h_block b l Hx Hl)). Qed.
Lemma h_para b : In b bs -> box (b_bbox (para_block b)) /\ ry0 (b_bbox b) <= ry0 (b_bbox (para_block b)) /\ ry1 (b_bbox (para_block b)) <= ry1 (b_bbox b).
Proof.
  intros Hx. destruct (h_box b Hx) as (_ & Cv & _ & _). destruct (hulled_box (para_block b)) as (B & _ & (t & Ht & Et) & (u & Hu & Eu)).
  - destruct (Hb b Hx) as (_ & N & _). split; [reflexivity|]. split; [exact N|]. exists (b_lines b). split; [reflexivity|]. intros l. reflexivity.
  - intros l Hl. apply (h_line l (h_block b l Hx Hl)).
  - split; [exact B|]. destruct (Cv t Ht) as (_ & C2 & _ & _). destruct (Cv u Hu) as (_ & _ & _ & C4). lra.
Qed.
Lemma h_some ts : ts <> [] -> (forall t, In t ts -> In t texts) -> exists l, In l (lines_in ts).
Proof.
  intros N I. destruct ts as [|t ts]; [congruence|]. pose proof Pa as Pa'. rewrite Forall_forall in Pa'. destruct (Pa' t (I t (or_introl eq_refl))) as (_ & _ & Ne & _). destruct (b_lines t) as [|l ls] eqn:E; [congruence|]. exists l. unfold lines_in. cbn [flat_map]. rewrite E. left. reflexivity.
Qed.
Lemma h_sides : cols <> [] -> Forall paragraph (above ++ below) /\ ForallOrdPairs other_block (above ++ below) /\ StronglySorted beneath (lines_in (above ++ below)).
Proof.
  intros Nc. split; [|split].
  - rewrite Forall_forall in *. intros t Ht. apply Pa. apply in_app_or in Ht. destruct Ht; [apply i_above|apply i_below]; assumption.
  - pose proof Ot as O. apply fop_app_l in O. destruct O as (O1 & O2 & O3). apply fop_app_l in O2. destruct O2 as (_ & O2 & _). apply GridProof7.fop_app; [exact O1|exact O2|]. intros x y Hx Hy. apply O3; [exact Hx|apply in_or_app; right; exact Hy].
  - pose proof Ta as Ta'. pose proof Tb as Tb'. apply top_down_lines in Ta'. apply top_down_lines in Tb'. rewrite lines_in_app.
    destruct (h_some cols Nc i_cols) as (l0 & I1).
    destruct (in_zone cols l0 I1 i_cols) as (((_ & Py) & _) & _).
    assert (X : forall l k, In l (lines_in above) -> In k (lines_in below) -> beneath l k) by (intros l k Hl Hk; pose proof (above_line l l0 Hl I1); pose proof (below_line k l0 Hk I1); unfold beneath; lra).
    revert Ta' X. generalize (lines_in above). intros la Ta' X. induction Ta' as [|l la Sl IHa Fa]; [exact Tb'|]. cbn [app]. constructor; [apply IHa; intros x k Hx; apply X; right; exact Hx|]. rewrite Forall_forall in *. intros k Hk. apply in_app_or in Hk. destruct Hk as [Hk|Hk]; [apply Fa, Hk|apply X; [left; reflexivity|exact Hk]].
Qed.

Theorem headed_level fuel : exists ft b0 b1 h n,
  layout_parse order rorder ids st (S (S fuel)) true (LayoutModel.mkW [] 0) area (map LText bs) no_shapes =
    Ok (LayoutModel.mkW [] n, map LText (map para_block above) ++ LTable ft [done (Some b0) left; done (Some b1) right] :: map LText (map para_block below)) /\
  half b0 /\ half b1 /\ 2 < h /\ tab_rows ft = [(h, 2%nat)] /\ tab_lattice ft = false /\ box (tab_box ft).
Proof.
  pose proof Hal as (Nl & Nr & Wd & HL & HR).
  assert (IL : forall l, In l (lines_in left) -> In l (lines_in cols)) by (intros l Hl; unfold cols; rewrite lines_in_app; apply in_or_app; left; exact Hl).
  assert (IR : forall l, In l (lines_in right) -> In l (lines_in cols)) by (intros l Hl; unfold cols; rewrite lines_in_app; apply in_or_app; right; exact Hl).
  assert (IC : forall l, In l (lines_in cols) -> In l (lines_in texts)) by (intros l Hl; apply lines_texts; auto).
  assert (Nc : cols <> []) by (unfold cols; destruct left; [congruence|discriminate]).
  destruct (h_some left Nl) as (l0 & I0); [intros t Ht; apply i_cols, in_or_app; left; exact Ht|]. destruct (h_some right Nr) as (l1 & I1); [intros t Ht; apply i_cols, in_or_app; right; exact Ht|].
  assert (Sd : forall l, In l (lines_in cols) -> Rect.covers area (ln_bbox l) /\ (In l (lines_in left) /\ TableSpec.in_left area (ln_bbox l) \/ In l (lines_in right) /\ TableSpec.in_right area (ln_bbox l))).
  { intros l Hl. unfold cols in Hl. rewrite lines_in_app in Hl. apply in_app_or in Hl. destruct Hl as [Hl|Hl]; [destruct (HL l Hl)|destruct (HR l Hl)]; tauto. }
  assert (In2 : forall l, In l (lines_in cols) -> TableSpec.in_column area (ln_bbox l)) by (intros l Hl; destruct (Sd l Hl) as (_ & C); unfold TableSpec.in_column; tauto).
  assert (Out2 : forall l, In l (lines_in above) \/ In l (lines_in below) -> TableSpec.spanning area (ln_bbox l)) by (intros l Hl; apply Acr; rewrite lines_in_app; apply in_or_app; exact Hl).
  assert (Not2 : forall e, TableSpec.spanning area e -> TableSpec.in_column area e -> False) by (intros e; unfold TableSpec.spanning, TableSpec.in_column, TableSpec.in_left, TableSpec.in_right; lra).
  set (elems := map ln_bbox (lines_in bs)).
  assert (Ie : forall e, In e elems <-> exists l, In l (lines_in texts) /\ e = ln_bbox l).
  { intros e. unfold elems. rewrite in_map_iff. split; intros (l & A & B); exists l; [split; [eapply Permutation_in; [exact Pl|exact B]|symmetry; exact A]|split; [symmetry; exact B|eapply Permutation_in; [apply Permutation_sym, Pl|exact A]]]. }
  assert (Ce : forall e, In e elems -> TableSpec.in_column area e -> exists l, In l (lines_in cols) /\ e = ln_bbox l).
  { intros e He Ci. apply Ie in He. destruct He as (l & Hl & ->). exists l. split; [|reflexivity]. apply lines_texts in Hl. destruct Hl as [Hl|[Hl|Hl]]; [exfalso|exact Hl|exfalso]; apply (Not2 (ln_bbox l)); auto. }
  assert (Be : forall e, In e elems -> proper e /\ rect_decimal e) by (intros e He; apply Ie in He; destruct He as (l & Hl & ->); destruct (h_line l Hl) as (_ & _ & (P1 & D1) & _); split; assumption).
  destruct (layout_columns area elems Be) as (Epl & Iec).
  { exists (ln_bbox l0). split; [apply Ie; exists l0; auto|left; apply (HL l0 I0)]. }
  { intros e He Sp. apply Ie in He. destruct He as (l & Hl & ->). apply lines_texts in Hl. destruct Hl as [Hl|[Hl|Hl]].
    - left. intros c Hc Ci. destruct (Ce c Hc Ci) as (k & Hk & ->). pose proof (above_line l k Hl Hk). lra.
    - exfalso. apply (Not2 (ln_bbox l) Sp), In2, Hl.
    - right. intros c Hc Ci. destruct (Ce c Hc Ci) as (k & Hk & ->). pose proof (below_line l k Hl Hk). lra. }
  set (ce := column_elements area elems) in *.
  assert (Ic : forall l, In l (lines_in cols) -> In (ln_bbox l) ce) by (intros l Hl; apply Iec; split; [apply Ie; exists l; auto|apply In2, Hl]).
  destruct (columns_table area ce) as (sr & b0 & b1 & h & Pt & To & H0 & H1 & Hh & X0 & X1 & Cv0 & Cv1 & Y0 & Y1 & Y2 & Y3).
  { intros e He. apply Iec in He. destruct He as (He & Ci). destruct (Be e He) as (P1 & D1). destruct (Ce e He Ci) as (l & Hl & ->). split; [exact P1|]. split; [exact D1|]. split; [apply (Sd l Hl)|exact Ci]. }
  { exact Wd. }
  { exists (ln_bbox l0). split; [apply Ic, IL, I0|apply (HL l0 I0)]. }
  { exists (ln_bbox l1). split; [apply Ic, IR, I1|apply (HR l1 I1)]. }
  rewrite <- Epl in Pt.
  set (rows := [mkBrow h [Some b0; Some b1]]) in *. pose proof H0 as (Mg0 & Wd0 & Bg0 & Bx0). pose proof H1 as (Mg1 & Wd1 & Bg1 & Bx1).
  destruct (table_hull h b0 b1 Bx0 Bx1) as (_ & (PF & DF) & F0 & F1). pose proof (fun c => table_least h b0 b1 c Bx0 Bx1) as Least. fold rows in PF, DF, F0, F1, Least. set (F := rows_box rows) in *. set (ft := mkTab F [(h, 2%nat)] false).
  assert (Rg : forall lo hi, (forall k, In k (lines_in cols) -> lo <= ry0 (ln_bbox k) /\ ry1 (ln_bbox k) <= hi) -> lo - (51 # 10) <= ry0 F /\ ry1 F <= hi + (51 # 10)).
  { intros lo hi R. destruct (boxes_range ce lo hi) as (R1 & R2).
    - intros E. specialize (Ic l0 (IL l0 I0)). rewrite E in Ic. exact Ic.
    - intros e He. apply Iec in He. apply Be, He.
    - intros e He. apply Iec in He. destruct He as (He & Ci). destruct (Ce e He Ci) as (l & Hl & ->). apply R, Hl.
    - pose proof (round1_bound (ry0 (boxes_bbox ce) - TableModel.MAJOR_DIST)) as Q0. pose proof (round1_bound (ry1 (boxes_bbox ce) + TableModel.MAJOR_DIST)) as Q1. cbv zeta in Y0, Y1, Y2, Y3. unfold TableModel.MAJOR_DIST in Q0, Q1, Y0, Y1, Y2, Y3.
      destruct (Least (mkRect (rx0 F) (lo - (51 # 10)) (rx1 F) (hi + (51 # 10)))) as (_ & A & _ & B); [| |cbn [ry0 ry1] in A, B; split; assumption]; [destruct F0 as (A & _ & B & _)|destruct F1 as (A & _ & B & _)]; unfold Rect.covers; cbn [rx0 rx1 ry0 ry1]; repeat split; lra. }
  assert (Fa : forall l, In l (lines_in above) -> ry1 (ln_bbox l) < ry0 F).
  { intros l Hl. destruct (Rg (ry1 (ln_bbox l) + 6) (ry1 F)) as (A & _); [|lra]. intros k Hk. pose proof (above_line l k Hl Hk). destruct (Sd k Hk) as (_ & [(I & _)|(I & _)]).
    - destruct (Cv0 _ (Ic k Hk) (proj2 (HL k I))) as (_ & _ & _ & C). destruct F0 as (_ & _ & _ & C'). split; lra.
    - destruct (Cv1 _ (Ic k Hk) (proj2 (HR k I))) as (_ & _ & _ & C). destruct F1 as (_ & _ & _ & C'). split; lra. }
  assert (Fb : forall l, In l (lines_in below) -> ry1 F < ry0 (ln_bbox l)).
  { intros l Hl. destruct (Rg (ry0 F) (ry0 (ln_bbox l) - 6)) as (_ & A); [|lra]. intros k Hk. pose proof (below_line l k Hl Hk). destruct (Sd k Hk) as (_ & [(I & _)|(I & _)]).
    - destruct (Cv0 _ (Ic k Hk) (proj2 (HL k I))) as (_ & C & _). destruct F0 as (_ & C' & _). split; lra.
    - destruct (Cv1 _ (Ic k Hk) (proj2 (HR k I))) as (_ & C & _). destruct F1 as (_ & C' & _). split; lra. }
  assert (CL : forall l, In l (lines_in left) -> Rect.covers (bc_bbox b0) (ln_bbox l)) by (intros l Hl; apply Cv0; [apply Ic, IL, Hl|apply (HL l Hl)]).
  assert (CR : forall l, In l (lines_in right) -> Rect.covers (bc_bbox b1) (ln_bbox l)) by (intros l Hl; apply Cv1; [apply Ic, IR, Hl|apply (HR l Hl)]).
  assert (CFl : forall l, In l (lines_in cols) -> Rect.covers F (ln_bbox l)) by (intros l Hl; destruct (Sd l Hl) as (_ & [(I & _)|(I & _)]); [apply (GeomProof.covers_trans _ _ _ F0), CL, I|apply (GeomProof.covers_trans _ _ _ F1), CR, I]).
  set (outer := fun b : tblock => negb (coversb F (b_bbox b))).
  assert (BxL : forall b l, In b bs -> In l (b_lines b) -> box (ln_bbox l)) by (intros b l Hx Hl; apply (h_line l (h_block b l Hx Hl))).
  (* blocks are above, inside or below *)
  assert (Zone : forall b, In b bs -> (Rect.covers F (b_bbox b) /\ forall l, In l (b_lines b) -> In l (lines_in cols)) \/
    ((ry1 (b_bbox b) < ry0 F \/ ry1 F < ry0 (b_bbox b)) /\ forall l, In l (b_lines b) -> In l (lines_in (above ++ below)))).
  { intros b Hx. destruct (h_box b Hx) as (_ & _ & (u & Hu & Eu) & (v & Hv & Ev)). destruct (Hz b Hx) as [Z|[Z|Z]].
    - right. split; [left; specialize (Fa v (Z v Hv)); lra|intros l Hl; rewrite lines_in_app; apply in_or_app; left; apply Z, Hl].
    - left. split; [|exact Z]. apply hulled_covers; [apply Hb, Hx|intros l Hl; apply (BxL b l Hx Hl)|intros l Hl; apply CFl, Z, Hl].
    - right. split; [right; specialize (Fb u (Z u Hu)); lra|intros l Hl; rewrite lines_in_app; apply in_or_app; right; apply Z, Hl]. }
  assert (ZO : forall b, In b bs -> outer b = true -> (ry1 (b_bbox b) < ry0 F \/ ry1 F < ry0 (b_bbox b)) /\ forall l, In l (b_lines b) -> In l (lines_in (above ++ below))).
  { intros b Hx O. destruct (Zone b Hx) as [(Z & _)|Z]; [|exact Z]. apply coversb_iff in Z. unfold outer in O. rewrite Z in O. discriminate O. }
  assert (ZI : forall b, In b bs -> outer b = false -> Rect.covers F (b_bbox b) /\ forall l, In l (b_lines b) -> In l (lines_in cols)).
  { intros b Hx O. unfold outer in O. apply negb_false_iff, coversb_iff in O. destruct (Zone b Hx) as [Z|(Z & _)]; [exact Z|exfalso]. destruct (h_box b Hx) as (((_ & Py) & _) & _). destruct O as (_ & O2 & _ & O4). lra. }
  set (ins := filter (fun b => coversb F (b_bbox b)) bs). set (outs := filter outer bs).
  assert (Iin : forall b, In b ins <-> In b bs /\ outer b = false) by (intros b; unfold ins; rewrite filter_In; unfold outer; rewrite negb_false_iff; reflexivity).
  assert (Isplit : Permutation (lines_in ins ++ lines_in outs) (lines_in texts)).
  { eapply Permutation_trans; [|exact Pl]. rewrite <- lines_in_app. unfold lines_in. apply Permutation_flat_map. unfold ins, outs, outer. clear. induction bs as [|b r IH]; [constructor|]. cbn [filter]. destruct (coversb F (b_bbox b)); cbn [negb app]; [constructor; exact IH|]. eapply Permutation_trans; [apply Permutation_sym, Permutation_middle|]. constructor. exact IH. }
  set (io := fun l : line => coversb F (ln_bbox l)).
  assert (ioC : forall l, In l (lines_in cols) -> io l = true) by (intros l Hl; apply coversb_iff, CFl, Hl).
  assert (ioO : forall l, In l (lines_in (above ++ below)) -> io l = false).
  { intros l Hl. rewrite lines_in_app in Hl. unfold io. destruct (coversb F (ln_bbox l)) eqn:E; [exfalso|reflexivity]. apply coversb_iff in E. destruct E as (_ & E2 & _ & E4). apply in_app_or in Hl.
    assert (It : In l (lines_in texts)) by (apply lines_texts; tauto). destruct (h_line l It) as (_ & _ & ((_ & Py) & _) & _). destruct Hl as [Hl|Hl]; [specialize (Fa l Hl)|specialize (Fb l Hl)]; lra. }
  assert (LIn : forall l, In l (lines_in ins) -> In l (lines_in cols)) by (intros l Hl; apply in_flat_map in Hl; destruct Hl as (b & Hx & Hl); apply Iin in Hx; apply (ZI b (proj1 Hx) (proj2 Hx)), Hl).
  assert (LOut : forall l, In l (lines_in outs) -> In l (lines_in (above ++ below))) by (intros l Hl; apply in_flat_map in Hl; destruct Hl as (b & Hx & Hl); apply filter_In in Hx; apply (ZO b (proj1 Hx) (proj2 Hx)), Hl).
  assert (Pin : Permutation (lines_in ins) (lines_in cols)).
  { pose proof (filter_perm io _ _ Isplit) as P. unfold texts in P. rewrite !lines_in_app, !filter_app in P. rewrite (filter_all io (lines_in ins)), (filter_none io (lines_in outs)), (filter_none io (lines_in above)), (filter_none io (lines_in below)), (filter_all io (lines_in cols)), !app_nil_r in P; [exact P|exact ioC| | | |].
    - intros l Hl. apply ioO. rewrite lines_in_app. apply in_or_app. right. exact Hl.
    - intros l Hl. apply ioO. rewrite lines_in_app. apply in_or_app. left. exact Hl.
    - intros l Hl. apply ioO, LOut, Hl.
    - intros l Hl. apply ioC, LIn, Hl. }
  assert (Pout : Permutation (lines_in outs) (lines_in (above ++ below))).
  { set (no := fun l => negb (io l)). pose proof (filter_perm no _ _ Isplit) as P. unfold texts in P. rewrite !lines_in_app, !filter_app in P. rewrite (filter_none no (lines_in ins)), (filter_all no (lines_in outs)), (filter_all no (lines_in above)), (filter_all no (lines_in below)), (filter_none no (lines_in cols)) in P; [rewrite lines_in_app; exact P| | | | |]; unfold no.
    - intros l Hl. rewrite (ioC l Hl). reflexivity.
    - intros l Hl. rewrite ioO; [reflexivity|]. rewrite lines_in_app. apply in_or_app. right. exact Hl.
    - intros l Hl. rewrite ioO; [reflexivity|]. rewrite lines_in_app. apply in_or_app. left. exact Hl.
    - intros l Hl. rewrite ioO; [reflexivity|]. apply LOut, Hl.
    - intros l Hl. rewrite ioC; [reflexivity|]. apply LIn, Hl. }
  assert (Fx : forall x y, decimal 10 x -> x <= y -> x <= round1 y) by (intros x y D L; eapply Qle_trans; [|apply round_p_mono; exact L]; rewrite (round_p_fixed 10 x D); lra).
  assert (Fy : forall x y, decimal 10 x -> y <= x -> round1 y <= x) by (intros x y D L; eapply Qle_trans; [apply round_p_mono; exact L|]; rewrite (round_p_fixed 10 x D); lra).
  assert (LtX : forall r, rect_decimal r -> TableSpec.in_left area r -> rx1 r <= rx0 (bc_bbox b1)) by (intros r (_ & _ & D & _) I; unfold TableSpec.in_left in I; pose proof (Fx _ (TableSpec.center area) D ltac:(lra)); lra).
  assert (GtX : forall r, rect_decimal r -> TableSpec.in_right area r -> rx1 (bc_bbox b0) <= rx0 r) by (intros r (D & _) I; unfold TableSpec.in_right in I; pose proof (Fy _ (TableSpec.center area) D ltac:(lra)); lra).
  assert (Al : forall b, In b ins -> (Rect.covers (bc_bbox b0) (b_bbox b) \/ almost_inside (bc_bbox b0) (b_bbox b) = false) /\ (Rect.covers (bc_bbox b1) (b_bbox b) \/ almost_inside (bc_bbox b1) (b_bbox b) = false)).
  { intros b Hi. apply Iin in Hi. destruct Hi as (Hx & Oi). destruct (ZI b Hx Oi) as (_ & Lc). destruct (h_box b Hx) as ((Pb & Db) & Cb & _). destruct (Bal b Hx Lc) as [B|[B|B]].
    - assert (All : forall l, In l (b_lines b) -> In l (lines_in left)).
      { intros l Hl. destruct (Sd l (Lc l Hl)) as (_ & [(I & _)|(_ & I)]); [exact I|exfalso]. destruct (BxL b l Hx Hl) as ((P1 & _) & _). destruct (Cb l Hl) as (_ & _ & C3 & _). unfold TableSpec.in_left, TableSpec.in_right in *. lra. }
      split; [left; apply hulled_covers; [apply Hb, Hx|intros l Hl; apply (BxL b l Hx Hl)|intros l Hl; apply CL, All, Hl]|right; apply almost_apart; [apply Bx1|exact Pb|]]. right. left. apply LtX; assumption.
    - assert (All : forall l, In l (b_lines b) -> In l (lines_in right)).
      { intros l Hl. destruct (Sd l (Lc l Hl)) as (_ & [(_ & I)|(I & _)]); [exfalso|exact I]. destruct (BxL b l Hx Hl) as ((P1 & _) & _). destruct (Cb l Hl) as (C1 & _). unfold TableSpec.in_left, TableSpec.in_right in *. lra. }
      split; [right; apply almost_apart; [apply Bx0|exact Pb|]; left; apply GtX; assumption|left; apply hulled_covers; [apply Hb, Hx|intros l Hl; apply (BxL b l Hx Hl)|intros l Hl; apply CR, All, Hl]].
    - cbv zeta in B. destruct B as (B1 & B2). pose proof (round1_bound (TableSpec.center area)) as Rb. pose proof Pb as (Pb1 & _).
      split; right; apply (part_outside _ _ 0); [apply Bx0|exact Pb|lra| |apply Bx1|exact Pb|lra|]; unfold qmin, qmax; qcases; lra. }
  assert (PaC : Forall paragraph cols) by (apply Forall_app in Pa; destruct Pa as (_ & P); apply Forall_app in P; apply P).
  assert (OtC : ForallOrdPairs other_block cols) by (pose proof Ot as O; apply fop_app_l in O; destruct O as (_ & O & _); apply fop_app_l in O; apply O).
  assert (HbI : forall b, In b ins -> hulled b) by (intros b Hx; apply Iin in Hx; apply Hb, Hx).
  assert (VI : pairwise vsep ins) by (apply pairwise_filter, V).
  assert (Rdy : Forall2 (cell_ready (map tb ins)) [Some b0; Some b1] [left; right]).
  { constructor; [|constructor; [|constructor]].
    - apply (column_ready left right ins PaC OtC Spn Pin HbI VI b0 left right H0 (or_introl eq_refl) CL); [|intros x Hx; apply (Al x Hx)|exact Tl]. intros l Hl. left. apply GtX; [apply (h_line l (IC l (IR l Hl)))|apply (HR l Hl)].
    - apply (column_ready left right ins PaC OtC Spn Pin HbI VI b1 right left H1 (or_intror eq_refl) CR); [|intros x Hx; apply (Al x Hx)|exact Tr]. intros l Hl. right. left. apply LtX; [apply (h_line l (IC l (IL l Hl)))|apply (HL l Hl)]. }
  destruct (filled order rorder ids st Ho Tol (map tb ins) [Some b0; Some b1] [left; right] Rdy 0) as (lcs & k1 & Fc & Pc).
  set (us := map para_block outs).
  assert (Ou : forall u, In u us -> exists b, In b bs /\ outer b = true /\ u = para_block b) by (intros u Hu; apply in_map_iff in Hu; destruct Hu as (b & <- & Hx); apply filter_In in Hx; exists b; tauto).
  assert (FlT : forall k bs, flat k (map LText bs) = map FText bs) by (clear; intros k bs; revert k; induction bs as [|t l IH]; intros k; [reflexivity|cbn [map flat]; rewrite IH; reflexivity]).
  assert (TbT : forall bs, tabs (map LText bs) = []) by (clear; intros bs; unfold tabs; induction bs as [|t l IH]; [reflexivity|exact IH]).
  set (w := LayoutModel.mkW [] 0).
  assert (Lt : layout_table w area (map LText bs) no_shapes = Ok (w, [(ft, [Some b0; Some b1])])).
  { unfold layout_table. assert (Ls : forall bs, flat_map LayoutModel.lines_of (map LText bs) = lines_in bs) by (clear; induction bs as [|t r IH]; [reflexivity|cbn [map flat_map LayoutModel.lines_of]; rewrite IH; reflexivity]).
    rewrite Ls. cbn [no_shapes ls_all shapes_at map]. rewrite app_nil_r. fold elems. rewrite (filter_all rect_bool) by (intros e He; apply GeomProof.proper_truthy, (Be e He)).
    rewrite Pt. unfold finish. rewrite To. fold rows. cbv zeta. fold F. rewrite (GeomProof.proper_truthy F PF). reflexivity. }
  assert (Pla : exists S, place_tables ids w (map LText bs) no_shapes [(ft, [Some b0; Some b1])] = Ok (LayoutModel.mkW [] k1, flat_map (back [LTable ft lcs]) S, no_shapes) /\ Permutation S (map FText us ++ [FTable 0 F])).
  { unfold place_tables. rewrite TbT, FlT, map_map. change (fun x => to_block (FText x)) with tb. cbn [map fst snd List.length]. unfold assign_to_tables. cbn [map ta_bbox]. change (tab_box ft) with F.
    rewrite (assign_frame F bs PF) by (intros b Hx; split; [apply (h_box b Hx)|]; destruct (Zone b Hx) as [(Z & _)|(Z & _)]; [left; exact Z|right; unfold apart; destruct Z; [right; right; right|right; right; left]; lra]).
    cbn [combine map fst snd ta_cells number_tables ta_bbox]. fold ins. pose proof (cells_any [info_box (Some b0); info_box (Some b1)] (map tb ins)) as Any. cbn [map] in Any. rewrite Any.
    assert (Eco : assign_cells [info_box (Some b0); info_box (Some b1)] (map tb ins) = contents_of (map tb ins) [Some b0; Some b1]) by reflexivity.
    rewrite Eco. cbn [fill_tables fst snd hd tl]. change (w_next w) with 0%nat. rewrite Fc. cbn [List.length seq combine map fst snd no_shapes ls_all].
    eexists. split; [reflexivity|]. eapply Permutation_trans; [apply Permutation_sym, sort_fblocks_perm|].
    assert (Eo : map (fun b => text_block (b_lines b)) (filter (fun b => negb (coversb F (b_bbox b))) bs) = map tb us).
    { unfold us, outs. rewrite map_map. apply map_ext_in. intros b Hx. apply filter_In in Hx. apply text_block_hull. intros l Hl. apply GeomProof.proper_truthy. apply (BxL b l (proj1 Hx) Hl). }
    rewrite Eo. rewrite filter_app. cbn [filter]. unfold blk_bool at 2. cbn [blk_bbox]. rewrite (GeomProof.proper_truthy F PF).
    rewrite (filter_all blk_bool (map tb us)); [|intros b Hx; apply in_map_iff in Hx; destruct Hx as (u & <- & Hu); destruct (Ou u Hu) as (b & Hx & _ & ->); apply GeomProof.proper_truthy; apply (h_para b Hx)].
    rewrite map_app, map_map. cbn [map of_block]. assert (Em : map (fun x => of_block (tb x)) us = map FText us); [|rewrite Em; apply Permutation_refl].
    apply map_ext_in. intros u Hu. destruct (Ou u Hu) as (b & _ & _ & ->). reflexivity. }
  destruct Pla as (S & Pla & PS). apply one_table in PS. destruct PS as (a & b & -> & Pab). change F with (tab_box ft) in Pla. rewrite back_one in Pla.
  assert (Fab : forall u, In u (a ++ b) -> exists x, In x bs /\ outer x = true /\ u = para_block x) by (intros u Hu; apply Ou; eapply Permutation_in; [apply Permutation_sym, Pab|exact Hu]).
  assert (Vab : pairwise vsep (a ++ b)).
  { apply (BorderProof3.pairwise_perm vsep ltac:(intros x y; unfold vsep; tauto) us (a ++ b) Pab). unfold us, outs. apply (pairwise_map vsep vsep para_block (filter outer bs)); [apply pairwise_filter, V|].
    intros x y Hx Hy Vxy. apply filter_In in Hx. apply filter_In in Hy. destruct (h_para x (proj1 Hx)) as (_ & A1 & A2). destruct (h_para y (proj1 Hy)) as (_ & B1 & B2). unfold vsep in *. lra. }
  set (fs := map FText a ++ FTable 0 F :: map FText b) in *.
  assert (Ufs : forall f, In f fs -> f = FTable 0 F \/ exists x, In x bs /\ outer x = true /\ f = FText (para_block x)).
  { intros f Hf. unfold fs in Hf. apply in_app_or in Hf. destruct Hf as [Hf|[<-|Hf]]; [|left; reflexivity|]; right; apply in_map_iff in Hf; destruct Hf as (u & <- & Hu); (destruct (Fab u) as (x & A1 & A2 & ->); [apply in_or_app; tauto|]); exists x; auto. }
  assert (Ra : forall f, In f fs -> reads_across f).
  { intros f Hf. destruct (Ufs f Hf) as [->|(x & Hx & _ & ->)]; [reflexivity|]. unfold reads_across. cbn [f_elem b_elem e_dir]. apply flat_dir. intros l Hl. apply (h_line l (h_block x l Hx Hl)). }
  assert (Vf : pairwise fsep fs).
  { apply (BorderProof3.pairwise_perm fsep ltac:(intros x y; unfold fsep; tauto) (FTable 0 F :: map FText (a ++ b)) fs); [unfold fs; rewrite map_app; apply Permutation_middle|]. constructor.
    - intros y Hy. apply in_map_iff in Hy. destruct Hy as (u & <- & Hu). destruct (Fab u Hu) as (x & Hx & Ox & ->). destruct (h_para x Hx) as (_ & A1 & A2). unfold fsep. cbn [f_box]. destruct (ZO x Hx Ox) as ([Z|Z] & _); [right|left]; lra.
    - apply (pairwise_map vsep fsep FText (a ++ b) Vab). intros x y _ _ Vxy. exact Vxy. }
  destruct (h_sides Nc) as (Sp & So & Ss).
  assert (Sm : stream order rorder st (LayoutModel.mkW [] k1) area (map LText a ++ LTable ft lcs :: map LText b) no_shapes = Ok (LayoutModel.mkW [] k1, [])).
  { unfold stream. rewrite flat_one. change (tab_box ft) with F. fold fs. rewrite (C65_plain_text order); [reflexivity|exact Ho| | |apply fsep_in_line; assumption].
    - intros f Hf. destruct (Ufs f Hf) as [->|(x & Hx & _ & ->)]; cbn [f_box].
      + split; [exact PF|]. unfold sub_lines. cbn [filter]. assert (E : ln_bool (table_line F) = true); [|rewrite E; discriminate]. unfold ln_bool, table_line. cbn [ln_bbox].
        apply GeomProof.proper_truthy. apply (GeomProof.proper_req F (rround F)); [|exact PF]. apply GeomProof.req_sym, rround_fixed. exact DF.
      + split; [apply (h_para x Hx)|]. unfold sub_lines. cbn [para_block b_lines]. rewrite normal_filter; [apply (Hb x Hx)|]. intros l Hl. apply (h_line l (h_block x l Hx Hl)).
    - intros f Hf. split; [|intros (s & [] & _)]. intros (t' & E & Fr). destruct (Ufs f Hf) as [->|(x & Hx & Ox & ->)]; [discriminate E|]. injection E as <-.
      assert (In' : In x outs) by (apply filter_In; split; assumption). destruct (stack_part (above ++ below) outs x Ss Pout In') as (s & Ps & Sq).
      cbn [para_block b_lines] in Fr. rewrite (flow_down order (flow_tol st) (separate st) (b_lines x) s Ho Tol) in Fr; [discriminate Fr|intros l Hl; apply (h_line l (h_block x l Hx Hl))|exact Ps|exact Sq]. }
  assert (Lab : Permutation (lines_in (a ++ b)) (lines_in (above ++ below))).
  { eapply Permutation_trans; [|exact Pout]. unfold lines_in. eapply Permutation_trans; [apply Permutation_flat_map, Permutation_sym, Pab|]. unfold us. rewrite flat_map_concat_map, map_map, <- flat_map_concat_map. apply Permutation_refl. }
  set (out := map (fun t => FText (para_block t)) above ++ FTable 0 F :: map (fun t => FText (para_block t)) below).
  assert (Sbk : forall ids', split_back order ids' (flow_tol st) (separate st) fs = Some out).
  { intros ids'. apply (split_mixed order ids' (flow_tol st) (separate st) fs (above ++ below) out Ho Tol Sp So Ss).
    - unfold fs. rewrite texts_one. exact Lab.
    - unfold fs. rewrite texts_one. intros x Hx. apply (stack_part (above ++ below) (a ++ b) x Ss Lab Hx).
    - unfold fs. rewrite tables_one. intros f [<-|[]]. unfold f_bool. cbn [f_box]. apply GeomProof.proper_truthy, PF.
    - unfold fs. rewrite tables_one, map_app. unfold out. cbn [app]. apply Permutation_middle.
    - pose proof Sp as Sp'. apply Forall_app in Sp'. destruct Sp' as (PaA & PaB). pose proof Ta as Ta'. pose proof Tb as Tb'. apply top_down_lines in Ta'. apply top_down_lines in Tb'. pose proof (para_higher above PaA Ta') as Ha. pose proof (para_higher below PaB Tb') as Hbl. rewrite Forall_forall in PaA, PaB.
      assert (Bt : forall t, paragraph t -> (exists l, In l (b_lines t) /\ ry0 (hull (b_lines t)) == ry0 (ln_bbox l)) /\ forall l, In l (b_lines t) -> ry0 (ln_bbox l) < ry1 (ln_bbox l)).
      { intros t (_ & _ & Ne & _ & Hl). destruct (hull_facts (b_lines t) Ne) as (_ & X & _); [intros l Hl'; destruct (Hl l Hl') as ((P1 & D1 & _) & _); split; assumption|]. split; [exact X|]. intros l Hl'. destruct (Hl l Hl') as (((_ & Py) & _) & _). exact Py. }
      destruct PF as (_ & PFy).
      assert (Mid : Forall (higher (FTable 0 F)) (map (fun t => FText (para_block t)) below)).
      { rewrite Forall_forall. intros f Hf. apply in_map_iff in Hf. destruct Hf as (t & <- & Ht). unfold higher. cbn [f_box para_block b_bbox]. destruct (Bt t (PaB t Ht)) as ((l & Hl & El) & _). assert (Il : In l (lines_in below)) by (apply in_flat_map; exists t; split; assumption). specialize (Fb l Il). lra. }
      unfold out. revert Ha. assert (Top : forall t, In t above -> Forall (higher (FText (para_block t))) (FTable 0 F :: map (fun t => FText (para_block t)) below)).
      { intros t Ht. destruct (Bt t (PaA t Ht)) as ((l & Hl & El) & Py). specialize (Py l Hl). assert (Il : In l (lines_in above)) by (apply in_flat_map; exists t; split; assumption). specialize (Fa l Il). constructor; [unfold higher; cbn [f_box para_block b_bbox]; lra|]. rewrite Forall_forall in *. intros f Hf. specialize (Mid f Hf). unfold higher in *. cbn [f_box para_block b_bbox] in *. lra. }
      clear - Top Mid Hbl. induction above as [|t l IH]; intros Ha; [cbn [map app]; constructor; [exact Hbl|exact Mid]|]. cbn [map app] in *. inversion Ha as [|? ? S1 F1]; subst. constructor; [apply IH; [intros x Hx; apply Top; right; exact Hx|exact S1]|]. apply Forall_app. split; [exact F1|apply Top; left; reflexivity]. }
  set (w2 := LayoutModel.mkW [] (k1 + length out)).
  destruct (Pc fuel w2) as (n & En). cbn [combine map fst snd] in En.
  exists ft, b0, b1, h, n. split; [|split; [exact H0|split; [exact H1|split; [exact Hh|split; [reflexivity|split; [reflexivity|split; assumption]]]]]].
  cbn [layout_parse]. fold w. unfold level. rewrite Lt. cbn [bind fst snd]. rewrite Pla. cbn [bind fst snd].
  assert (La : lattice order st (LayoutModel.mkW [] k1) no_shapes = Ok (LayoutModel.mkW [] k1, [])) by reflexivity. rewrite La. cbn [bind fst snd place_tables]. rewrite Sm. cbn [bind fst snd place_tables].
  rewrite flat_one, tabs_one. change (tab_box ft) with F. fold fs. rewrite Sbk. cbn [bind fst snd w_shapes w_next]. fold w2.
  unfold text_format. change (style_shapes w2 no_shapes) with (@nil nat). cbn [format_blocks fst snd].
  unfold out. rewrite <- !(map_map para_block FText). change F with (tab_box ft). rewrite back_one. rewrite format_borders by (intros k []). cbn [fst snd]. exact (parse_one _ w2 ft lcs _ _ _ _ En).
Qed.
End Level.
