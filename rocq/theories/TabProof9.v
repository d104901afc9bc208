(** A page with a ruled table is parsed to the text above it, the table with the texts of its cells, and the text below it. *)
From Verif Require GeomProof TableProps TableSpec TableProof FmtProof5 TabProof7.
From Verif Require Import AssignSpec AssignProof InterProof GraphProof TextProof PySort FlowModel FlowSpec FlowProof FlowProof2 FlowProps LayoutSpec LayoutProof.
From Verif Require Import CleanSpec CleanProof CleanProof2 CleanProof3 CleanProps.
From Verif Require Import TabSpec GridProof5 GridProof6 GridProof7 LayoutProof2.
From Verif Require Import CleanModel CleanSpec FlowModel FlowSpec LayoutModel WholeModel WholeSpec WholeProof WholeProof2 WholeProof3 WholeProof4 WholeProof5 WholeProof6 PlaceSpec PlaceProof3 TabProof TabProof2 TabProof3 TabProof4 TabProof5 TabProof6 TabProof8.
From Verif Require PageModel ShapeModel.
From Verif Require Import GridSpec.
From Verif Require Import CleanModel.
From Coq Require Import Lia Lqa Permutation Sorting.Sorted.
Notation length := List.length.
Notation pairwise := BorderProof3.pairwise.
Open Scope Q_scope.


(** A page with a table across its middle is not one of two columns. *)
Lemma not_two_columns d g area el ss : 1 <= d -> grid_ok d g -> 1 # 10 < g_width g -> drawn_grid g ss -> (forall s, In s ss -> In (sh_bbox s) el) -> (forall x, In x el -> proper x /\ rect_decimal x) ->
  across_middle area g -> page_layout area el = None.
Proof.
  intros D1 Ok_ W (hs & vs & P & Lh & Lv & Rh & Rv) El B (A1 & A2). pose proof Ok_ as (C1 & C2 & _ & _ & _ & _ & _ & L0 & R0 & _ & _ & T0 & B0 & _).
  destruct (nth_error hs 0) as [h|] eqn:Eh; [|apply nth_error_None in Eh; unfold g_rows in C2; lia]. destruct (nth_error vs 0) as [v|] eqn:Ev; [|apply nth_error_None in Ev; unfold g_cols in C1; lia].
  assert (Ih : In (sh_bbox h) el) by (apply El; eapply Permutation_in; [apply Permutation_sym, P|]; apply in_or_app; left; eapply nth_error_In, Eh).
  assert (Iv : In (sh_bbox v) el) by (apply El; eapply Permutation_in; [apply Permutation_sym, P|]; apply in_or_app; right; eapply nth_error_In, Ev).
  pose proof (Rh _ _ Eh) as H. pose proof (Rv _ _ Ev) as V. unfold h_rule in H. unfold v_rule in V. rewrite L0, R0 in H. rewrite T0, B0 in V.
  pose proof (TabProof7.rule_box g _ _ _ _ _ H) as (X0 & Y0 & X1 & Y1 & _). pose proof (TabProof7.rule_box g _ _ _ _ _ V) as (U0 & V0 & U1 & V1 & _).
  pose proof (GridProof5.by_ d g D1 Ok_ 0 (g_rows g) ltac:(lia) ltac:(lia)) as Hy.
  assert (Cv : TableSpec.in_column area (sh_bbox v)) by (left; unfold TableSpec.in_left; lra).
  destruct (page_layout area el) eqn:Ep; [|reflexivity]. exfalso.
  assert (Wh := proj1 (TableProps.C55_when area el B (ex_intro _ _ (conj Iv Cv)))). rewrite Ep in Wh.
  destruct (Wh ltac:(discriminate) _ Ih) as [A|A]; [unfold TableSpec.spanning; split; lra|specialize (A _ Iv Cv); lra|specialize (A _ Iv Cv); lra].
Qed.
Lemma no_beside_vsep out : (forall b, In b out -> box (b_bbox b)) -> (forall a b rest, Permutation out (a :: b :: rest) -> ~ beside (b_bbox a) (b_bbox b)) -> pairwise vsep out.
Proof.
  induction out as [|a out IH]; intros B H; constructor.
  - intros b Hb. apply in_split in Hb. destruct Hb as (l & r & E). specialize (H a b (l ++ r)). rewrite E in H.
    assert (N : ~ beside (b_bbox a) (b_bbox b)) by (apply H; apply perm_skip; apply Permutation_sym, Permutation_middle).
    destruct (B a (or_introl eq_refl)) as ((_ & Pa) & _). destruct (B b) as ((_ & Pb) & _); [right; rewrite E; apply in_elt|].
    unfold vsep. destruct (Qlt_le_dec (ry1 (b_bbox a)) (ry0 (b_bbox b))); [left; assumption|]. destruct (Qlt_le_dec (ry1 (b_bbox b)) (ry0 (b_bbox a))); [right; assumption|]. exfalso. apply N.
    exists (qmax (ry0 (b_bbox a)) (ry0 (b_bbox b))). unfold qmax. qcases; split; split; lra.
  - apply IH; [intros b Hb; apply B; right; exact Hb|]. intros x y rest P. apply (H x y (a :: rest)). eapply Permutation_trans; [apply perm_skip, P|]. eapply Permutation_trans; [apply perm_swap|]. apply perm_skip, perm_swap.
Qed.

Section Page.
Variable order : list nat -> list nat.
Variable rorder : list (Q * Q) -> list (Q * Q).
Variable ids : nat -> nat.
Variable pm : params.
Hypothesis Ho : forall l, Permutation l (order l).
Variables (d : Q) (p : rawpage) (g : grid) (r : nat -> nat -> TableSpec.region).
Variables (above below : list tblock) (cells : nat -> nat -> list tblock).
Let m := p_line_merging pm.
Hypothesis Set_ : table_settings pm d g.
Hypothesis Pg : table_page (p_image_gap pm) m p g r above cells below.
Let texts := all_texts g above below cells.
Let area c := PageModel.working_bbox (r_width p) (r_height p) (page_margin pm p c).

Theorem page_tabled fuel : (forall c, clean_page order pm p = Some c -> across_middle (area c) g /\ sharing g r (c_blocks c)) ->
  exists c rows w1 n, clean_page order pm p = Some c /\ c_floats c = [] /\
    layout_parse order rorder ids (layout_settings pm) (S (S fuel)) true (LayoutModel.mkW (c_shapes c) 0) (area c) (map LText (c_blocks c)) (page_shapes c) =
      Ok (LayoutModel.mkW w1 n, map LText (map para_block above) ++ LTable (frame_table g) (map (fun p => done (fst p) (snd p)) (combine (concat rows) (tile_texts g cells))) :: map LText (map para_block below)) /\
    rows_as_drawn g rows /\ borders_as_drawn g (r_shapes p) rows.
Proof.
  intros Ac. pose proof (pd1 pm d g Set_) as D1. pose proof (pok pm d g Set_) as Ok_. pose proof (ptx pm p g r above below cells Pg) as Tx.
  pose proof Set_ as (Slo & Sfl & Scn & Scl & Sbw & Ssm & Slm & Sd1 & Sd2 & Sd3 & Sd4 & Sd5 & Sw & _). pose proof Pg as (Pp & Pb & Pt & _ & Dr & Ro & Ti & Ss).
  assert (Pa : Forall paragraph texts) by apply Tx.
  destruct (clean_clear order (p_image_gap pm) (p_line_overlap pm) m (page_box p) (r_blocks p) texts Ho Slm Slo Pp Pb Pt Pa (texts_clear pm d p g r above below cells Set_ Pg)) as (out & Cu & Pl & Bo & Pr & Nb).
  set (ss := ShapeModel.clean_up (page_box p) (p_border_width pm) (p_shape_merging pm) (p_shape_min pm) (r_shapes p)).
  assert (Ps : Permutation (r_shapes p) ss) by (apply (TabProof7.clean_drawn d g Ok_ D1 Sd4 Sw); [exact Ssm|exact Sd2|exact Pp|exact Dr|intros s Hs; apply (Ss s Hs)]).
  set (c := mkClean [] (sort_blocks out) (name_shapes 1 ss)).
  assert (Cl : clean_page order pm p = Some c) by (unfold clean_page; fold m; rewrite Cu; reflexivity).
  destruct (Ac c Cl) as (Am & Sh). clear Ac. pose proof (sort_blocks_perm out) as Pso.
  pose proof (drawn_perm g _ _ Ps Dr) as Ds. pose proof (drawn_renamed g _ _ (named_renamed ss 1) Ds) as Dn.
  set (w := LayoutModel.mkW (c_shapes c) 0).
  assert (Lw : length (w_shapes w) = length ss) by (cbn [w w_shapes c c_shapes]; apply named_length).
  assert (Kst : forall s, In s ss -> proper (sh_bbox s) /\ sh_kind s = KStroke /\ (d < rwidth (sh_bbox s) \/ d < rheight (sh_bbox s)) /\ rect_decimal (sh_bbox s)) by (apply (TabProof7.drawn_strokes d g Ok_ D1 Sd4 Sw ss Ds)).
  assert (At : forall k, (k < length ss)%nat -> exists s, In s ss /\ In s (r_shapes p) /\ renamed s (shape_at w k)).
  { intros k Hk. destruct (nth_error ss k) as [s|] eqn:E; [|apply nth_error_None in E; lia]. exists s. assert (I : In s ss) by (eapply nth_error_In, E). split; [exact I|]. split; [eapply Permutation_in; [apply Permutation_sym, Ps|exact I]|].
    unfold shape_at. cbn [w w_shapes c c_shapes]. assert (G : forall l j n s, nth_error l j = Some s -> renamed s (nth j (name_shapes n l) empty_stroke)); [|exact (G ss k 1%nat s E)].
    clear. induction l as [|x l IH]; intros j n s E; [destruct j; discriminate|]. destruct j as [|j]; [|cbn [name_shapes nth]; apply IH, E]. injection E as ->. pose proof (named_renamed (s :: l) n) as F. cbn [name_shapes] in F |- *. inversion F; subst. cbn [nth]. assumption. }
  assert (Bl : forall b l, In b (sort_blocks out) -> In l (b_lines b) -> In l (lines_in texts)).
  { intros b l Hb Hl. eapply Permutation_in; [exact Pl|]. apply in_flat_map. exists b. split; [eapply Permutation_in; [apply Permutation_sym, Pso|exact Hb]|exact Hl]. }
  assert (Nl : forall l, In l (lines_in texts) -> normal_line l) by (intros l Hl; apply in_flat_map in Hl; destruct Hl as (t & Ht & Hl); apply (line_place m g r above below cells Tx t l Ht Hl)).
  assert (Ept : page_shapes c = mkLS (seq 0 (length ss)) (seq 0 (length ss)) [] (seq 0 (length ss)) []).
  { unfold page_shapes. fold w. replace (length (c_shapes c)) with (length ss) by (symmetry; exact Lw). apply categorise_strokes. intros k Hk. apply in_seq in Hk. destruct (At k) as (s & I1 & I2 & (u & Eu)); [lia|]. rewrite Eu. unfold shape_bool. cbn [sh_kind sh_bbox].
    destruct (Kst s I1) as (Ks1 & Ks2 & _). split; [exact Ks2|]. split; [apply GeomProof.proper_truthy, Ks1|].
    intros b x Hb Hx. unfold shape_blocks in Hb. apply in_flat_map in Hb. destruct Hb as (lb & Hlb & Hb). apply in_map_iff in Hlb. destruct Hlb as (t & <- & Ht). destruct Hb as [<-|[]]. cbn [ShapeModel.tb_lines] in Hx. apply in_map_iff in Hx. destruct Hx as (l & <- & Hl). cbn [c c_blocks] in Ht.
    pose proof (Bl t l Ht Hl) as It. destruct (Ss s I2) as (_ & Ap). specialize (Ap l It). destruct (Nl l It) as (Pn & _). apply GeomProof.contains_disjoint; [exact Pn|exact Ks1|reflexivity|]. unfold apart in Ap. destruct Ap as [Ap|[Ap|[Ap|Ap]]]; first [left; lra|right; left; lra|right; right; left; lra|right; right; right; lra]. }
  assert (Esh : shapes_at w (seq 0 (length ss)) = c_shapes c) by (unfold shapes_at, shape_at; rewrite <- Lw; apply map_nth_all).
  assert (Bx : forall b, In b (sort_blocks out) -> hulled b /\ zoned g b /\ box (b_bbox b)).
  { intros b Hb. apply (Permutation_in _ (Permutation_sym Pso)) in Hb. destruct (Bo b Hb) as (B1 & B2 & B3 & B4). assert (Hu : hulled b) by (split; [exact B1|split; [exact B3|exact B4]]). split; [exact Hu|]. split; [|exact B2].
    apply (block_zone pm d p g r above below cells Set_ Pg out b Pl Hb Hu Pr). }
  assert (Lt : layout_table w (area c) (map LText (sort_blocks out)) (page_shapes c) = Ok (w, [])).
  { unfold layout_table. assert (Ls : forall bs, flat_map LayoutModel.lines_of (map LText bs) = lines_in bs) by (clear; induction bs as [|t r IH]; [reflexivity|cbn [map flat_map LayoutModel.lines_of]; rewrite IH; reflexivity]).
    rewrite Ls, Ept. cbn [ls_all]. rewrite Esh. set (el := map ln_bbox (lines_in (sort_blocks out)) ++ map sh_bbox (c_shapes c)).
    assert (B : forall x, In x el -> proper x /\ rect_decimal x).
    { intros x Hx. apply in_app_or in Hx. destruct Hx as [Hx|Hx]; apply in_map_iff in Hx; destruct Hx as (y & <- & Hy).
      - apply in_flat_map in Hy. destruct Hy as (b & Hb & Hy). destruct (Nl y (Bl b y Hb Hy)) as (A1 & A2 & _). split; assumption.
      - destruct (TabProof7.drawn_strokes d g Ok_ D1 Sd4 Sw _ Dn y Hy) as (A1 & _ & _ & A2). split; assumption. }
    rewrite (filter_all rect_bool) by (intros x Hx; apply GeomProof.proper_truthy; apply (B x Hx)).
    rewrite (not_two_columns d g (area c) el (c_shapes c) D1 Ok_ Sw Dn); [reflexivity|intros s Hs; apply in_or_app; right; apply in_map, Hs|exact B|exact Am]. }
  destruct (table_level order rorder ids (layout_settings pm) Ho Sfl Scn Scl Sbw d m g r above below cells Sd1 Sd5 Ok_ Ro Ti Tx w (page_shapes c) (area c) (sort_blocks out)) with (fuel := fuel) as (rows & n & w1 & E & Rd & Bd).
  - rewrite Ept. cbn [ls_strokes]. rewrite Esh. exact Dn.
  - rewrite Ept. cbn [ls_all]. destruct Ds as (hs & vs & P & Lh & _). pose proof Ok_ as (_ & C2 & _). unfold g_rows in C2. apply Permutation_length in P. rewrite app_length in P. destruct (length ss); [lia|discriminate].
  - rewrite Ept. cbn [ls_all ls_lines ls_strokes]. tauto.
  - rewrite Ept. reflexivity.
  - rewrite Ept. reflexivity.
  - rewrite Ept. cbn [ls_strokes]. intros k Hk. apply in_seq in Hk. split; [lia|]. unfold shape_at. cbn [w w_shapes c c_shapes]. rewrite named_uri; [reflexivity|intros s Hs; apply (Kst s Hs)|lia].
  - eapply Permutation_trans; [|exact Pl]. unfold lines_in. apply Permutation_flat_map. apply Permutation_sym, Pso.
  - intros b Hb. destruct (Bx b Hb) as (B1 & B2 & _). split; assumption.
  - eapply BorderProof3.pairwise_perm; [|exact Pso|]; [intros a b H; unfold vsep in *; tauto|]. apply no_beside_vsep; [intros b Hb; apply (Bo b Hb)|exact Nb].
  - intros b i j k n Hb Hi Hj E. apply (Sh b i j k n); assumption.
  - exact Lt.
  - exists c, rows, w1, n. split; [exact Cl|]. split; [reflexivity|]. split; [exact E|]. split; [exact Rd|]. specialize (Bd Sd3). rewrite Ept in Bd. cbn [ls_strokes] in Bd. rewrite Esh in Bd.
    intros i j ro b k n' E1 E2 E3 Sd. destruct (Bd i j ro b k n' E1 E2 E3 Sd) as (Wd & tp & rg & bt & lf & I1 & I2 & I3 & I4 & R1 & R2 & R3 & R4 & Co). split; [exact Wd|].
    assert (Bk : forall s, In s (c_shapes c) -> exists s0, In s0 (r_shapes p) /\ renamed s0 s).
    { intros s Hs. cbn [c c_shapes] in Hs. apply In_nth_error in Hs. destruct Hs as (q & Eq). destruct (At q) as (s0 & _ & I & R); [rewrite <- Lw; apply nth_error_Some; cbn [w w_shapes c c_shapes]; congruence|].
      exists s0. split; [exact I|]. unfold shape_at in R. cbn [w w_shapes c c_shapes] in R. rewrite (nth_error_nth _ _ _ Eq) in R. exact R. }
    destruct (Bk tp I1) as (tp0 & J1 & N1), (Bk rg I2) as (rg0 & J2 & N2), (Bk bt I3) as (bt0 & J3 & N3), (Bk lf I4) as (lf0 & J4 & N4).
    exists tp0, rg0, bt0, lf0. split; [exact J1|]. split; [exact J2|]. split; [exact J3|]. split; [exact J4|]. split; [apply (rule_renamed _ _ _ _ _ _ _ N1), R1|]. split; [apply (rule_renamed _ _ _ _ _ _ _ N2), R2|]. split; [apply (rule_renamed _ _ _ _ _ _ _ N3), R3|]. split; [apply (rule_renamed _ _ _ _ _ _ _ N4), R4|].
    destruct N1 as (u1 & ->), N2 as (u2 & ->), N3 as (u3 & ->), N4 as (u4 & ->). exact Co.
Qed.
End Page.
