(** Parsing of a page with a drawn table. *)
From Verif Require GeomProof TableProps TableSpec TableProof FmtProof5.
From Verif Require Import AssignSpec AssignProof InterProof GraphProof TextProof PySort FlowModel FlowSpec FlowProof FlowProof2 FlowProps LayoutSpec LayoutProof.
From Verif Require Import CleanSpec CleanProof CleanProof2 CleanProof3 CleanProps.
From Verif Require Import TabSpec GridProof5 GridProof6 GridProof7 LayoutProof2.
From Verif Require Import CleanModel CleanSpec FlowModel FlowSpec LayoutModel WholeModel WholeSpec WholeProof WholeProof2 WholeProof3 WholeProof4 WholeProof5 TabProof TabProof2 TabProof3 TabProof4 TabProof5.
From Verif Require Import GridSpec.
From Verif Require Import CleanModel.
From Coq Require Import Lia Lqa Permutation Sorting.Sorted.
Notation length := List.length.
Notation pairwise := BorderProof3.pairwise.
Open Scope Q_scope.

(** Blocks with one table among them. *)
Lemma one_table S us F : Permutation S (map FText us ++ [FTable 0 F]) -> exists a b, S = map FText a ++ FTable 0 F :: map FText b /\ Permutation us (a ++ b).
Proof.
  intros P. assert (I : In (FTable 0 F) S) by (eapply Permutation_in; [apply Permutation_sym, P|apply in_elt]). apply in_split in I. destruct I as (x & y & ->).
  assert (Q : Permutation (x ++ y) (map FText us)).
  { apply (Permutation_cons_inv (a := FTable 0 F)). eapply Permutation_trans; [apply Permutation_middle|]. eapply Permutation_trans; [exact P|]. apply Permutation_sym, Permutation_cons_append. }
  apply Permutation_map_inv in Q. destruct Q as (zs & E & Q). symmetry in E. apply map_eq_app in E. destruct E as (a & b & -> & <- & <-). exists a, b. split; [reflexivity|exact Q].
Qed.
Lemma back_one ft lcs a b : flat_map (back [LTable ft lcs]) (map FText a ++ FTable 0 (tab_box ft) :: map FText b) = map LText a ++ LTable ft lcs :: map LText b.
Proof. rewrite flat_map_app. cbn [flat_map back nth_error app]. rewrite !back_texts. reflexivity. Qed.
Lemma flat_one ft lcs a b : flat 0 (map LText a ++ LTable ft lcs :: map LText b) = map FText a ++ FTable 0 (tab_box ft) :: map FText b.
Proof.
  assert (G : forall b k, flat k (map LText b) = map FText b) by (clear; induction b as [|t r IH]; intros k; [reflexivity|cbn [map flat]; rewrite IH; reflexivity]).
  induction a as [|t r IH]; cbn [map flat app]; [rewrite G; reflexivity|rewrite IH; reflexivity].
Qed.
Lemma tabs_one ft lcs a b : tabs (map LText a ++ LTable ft lcs :: map LText b) = [LTable ft lcs].
Proof.
  unfold tabs. rewrite filter_app. cbn [filter is_ltable]. assert (E : forall a, filter is_ltable (map LText a) = []) by (clear; induction a as [|t r IH]; [reflexivity|exact IH]). rewrite !E. reflexivity.
Qed.
Lemma texts_one F a b : texts_of (map FText a ++ FTable 0 F :: map FText b) = a ++ b.
Proof.
  unfold texts_of. rewrite flat_map_app. cbn [flat_map app]. assert (E : forall a, flat_map (fun f => match f with FText t => [t] | FTable _ _ => [] end) (map FText a) = a) by (clear; induction a as [|t r IH]; [reflexivity|cbn [map flat_map app]; f_equal; exact IH]). rewrite !E. reflexivity.
Qed.
Lemma tables_one F a b : tables_of (map FText a ++ FTable 0 F :: map FText b) = [FTable 0 F].
Proof.
  unfold tables_of. rewrite filter_app. cbn [filter]. assert (E : forall a, filter (fun f => match f with FText _ => false | FTable _ _ => true end) (map FText a) = []) by (clear; induction a as [|t r IH]; [reflexivity|exact IH]). rewrite !E. reflexivity.
Qed.
Lemma parse_one rec w ft lcs lcs' w' a b : parse_cells rec w lcs = Ok (w', lcs') -> parse_tables rec w (map LText a ++ LTable ft lcs :: map LText b) = Ok (w', map LText a ++ LTable ft lcs' :: map LText b).
Proof.
  intros E. induction a as [|t r IH]; cbn [map app parse_tables bind fst snd].
  - rewrite E. cbn [bind fst snd]. rewrite texts_parsed. reflexivity.
  - rewrite IH. reflexivity.
Qed.
(** Borders do not format text. *)
Lemma upd_same {A} (x : A) : forall l k dflt, (k < length l)%nat -> nth k l dflt = x -> upd_at k (fun _ => x) l = l.
Proof. induction l as [|a l IH]; intros k dflt H E; [cbn in H; lia|]. destruct k as [|k]; cbn [upd_at nth] in *; [subst; reflexivity|]. f_equal. apply (IH k dflt); [cbn in H; lia|exact E]. Qed.
Lemma format_borders ks bs : forall w, (forall k, In k ks -> sh_type (shape_at w k) = R_BORDER /\ (k < length (w_shapes w))%nat) -> format_blocks w ks bs = (w, bs).
Proof.
  intros w H. assert (L : forall bb ls, format_lines w bb ls ks = (w, ls)).
  { clear bs. intros bb ls. induction ks as [|k t IH]; [reflexivity|]. cbn [format_lines]. destruct (H k (or_introl eq_refl)) as (B & Lk). unfold applicable. rewrite B. cbn [rtype_eqb orb andb].
    assert (E : put_shape k (shape_at w k) w = w) by (unfold put_shape; rewrite (upd_same (shape_at w k) (w_shapes w) k empty_stroke Lk eq_refl); destruct w; reflexivity). rewrite E. apply IH. intros x Hx. apply H. right. exact Hx. }
  induction bs as [|[t|ft cs] r IH]; [reflexivity| |]; cbn [format_blocks]; [rewrite L, IH; destruct t|rewrite IH]; reflexivity.
Qed.
Definition fsep (a b : fblock) : Prop := ry1 (f_box a) < ry0 (f_box b) \/ ry1 (f_box b) < ry0 (f_box a).
Lemma fsep_in_line fs : (forall f, In f fs -> reads_across f) -> pairwise fsep fs -> forall i, ~ in_line_at fs i.
Proof.
  intros D V i (a & b & Ha & Hb & IL). assert (S : fsep a b).
  { clear - V Ha Hb. revert i Ha Hb. induction V as [|z l F V IH]; intros i Ha Hb; [destruct i; discriminate|]. destruct i as [|i]; [injection Ha as ->; apply F; change (nth_error l 0 = Some b) in Hb; eapply nth_error_In, Hb|apply (IH i Ha Hb)]. }
  pose proof (D a (nth_error_In _ _ Ha)) as Da. unfold reads_across in Da. destruct IL as [I1 I2]. rewrite Da in I1, I2. change (is_horizontal LEFT_RIGHT) with true in *. cbn [lo hi] in I1, I2. unfold fsep in S. lra.
Qed.

Section Level.
Variable order : list nat -> list nat.
Variable rorder : list (Q * Q) -> list (Q * Q).
Variable ids : nat -> nat.
Variable st : settings.
Hypothesis Ho : forall l, Permutation l (order l).
Hypothesis Tol : 0 < flow_tol st.
Hypothesis Hcn : 0 < connected st.
Hypothesis Hc : 0 <= clearance st.
Hypothesis Hw : 0 <= max_width st.
Variables (d m : Q) (g : grid) (r : nat -> nat -> TableSpec.region).
Variables (above below : list tblock) (cells : nat -> nat -> list tblock).
Hypothesis Hd : clearance st + 1 <= d.
Hypothesis Hd2 : g_width g + 2 * connected st + (1 # 10) <= d.
Hypothesis M : 0 <= m.
Hypothesis Ok_ : grid_ok d g.
Hypothesis Root : rooted g.
Hypothesis T : tiles g r.
Hypothesis Tx : table_texts m g r above cells below.
Variables (w : world) (ss : lshapes) (area : rect) (bs : list tblock).
Hypothesis D : drawn_grid g (shapes_at w (ls_strokes ss)).
Hypothesis All : ls_all ss <> [].
Hypothesis Sub : forall k, In k (ls_all ss) \/ In k (ls_lines ss) -> In k (ls_strokes ss).
Hypothesis Fills : ls_fills ss = [].
Hypothesis Marks : ls_marks ss = [].
Hypothesis Id : forall k, In k (ls_strokes ss) -> (k < length (w_shapes w))%nat /\ sh_uri (shape_at w k) = S k.
Hypothesis Pl : Permutation (lines_in bs) (lines_in (all_texts g above below cells)).
Hypothesis Hb : forall b, In b bs -> hulled b /\ zoned g b.
Hypothesis V : pairwise vsep bs.
Hypothesis Al : forall b i j k n, In b bs -> (i < g_rows g)%nat -> (j < g_cols g)%nat -> r i j = (i, j, k, n) -> Rect.covers (place g i j k n) (b_bbox b) \/ almost_inside (place g i j k n) (b_bbox b) = false.
Hypothesis Lt : layout_table w area (map LText bs) ss = Ok (w, []).
Let F := frame_box g.
Let outer (b : tblock) : bool := negb (coversb F (b_bbox b)).
Let paras (ts : list tblock) : list tblock := map para_block ts.

Lemma Hd1_ : 1 <= d. Proof. lra. Qed.
Lemma block_line b l : In b bs -> In l (b_lines b) -> In l (lines_in (all_texts g above below cells)).
Proof. intros Hx Hl. eapply Permutation_in; [exact Pl|]. apply in_flat_map. exists b. split; assumption. Qed.
Lemma block_flat b l : In b bs -> In l (b_lines b) -> flat_line l /\ ln_pid l <> None /\ box (ln_bbox l).
Proof.
  intros Hx Hl. pose proof (block_line b l Hx Hl) as H. apply in_flat_map in H. destruct H as (t & Ht & H). destruct (line_place m g r above below cells Tx t l Ht H) as (N & Dr & _).
  split; [split; assumption|]. destruct (text_paragraph m g r above below cells Tx t Ht) as (_ & _ & _ & (p & Hp) & _). split; [rewrite (Hp l H); discriminate|]. destruct N as (P & De & _). split; assumption.
Qed.
Lemma block_box b : In b bs -> box (b_bbox b) /\ (forall l, In l (b_lines b) -> Rect.covers (b_bbox b) (ln_bbox l)) /\
  (exists l, In l (b_lines b) /\ ry0 (b_bbox b) == ry0 (ln_bbox l)) /\ (exists l, In l (b_lines b) /\ ry1 (b_bbox b) == ry1 (ln_bbox l)).
Proof. intros Hx. apply (hulled_box b (proj1 (Hb b Hx))). intros l Hl. apply (block_flat b l Hx Hl). Qed.
Lemma para_hulled b : In b bs -> hulled (para_block b).
Proof. intros Hx. destruct (Hb b Hx) as ((_ & N & _) & _). split; [reflexivity|]. split; [exact N|]. exists (b_lines b). split; [reflexivity|]. intros l. reflexivity. Qed.
(** The same box, but for the representation. *)
Lemma para_range b : In b bs -> box (b_bbox (para_block b)) /\ ry0 (b_bbox b) <= ry0 (b_bbox (para_block b)) /\ ry1 (b_bbox (para_block b)) <= ry1 (b_bbox b).
Proof.
  intros Hx. destruct (block_box b Hx) as (_ & Cv & _ & _). destruct (hulled_box (para_block b) (para_hulled b Hx)) as (B & _ & (t & Ht & Et) & (u & Hu & Eu)); [intros l Hl; apply (block_flat b l Hx Hl)|].
  split; [exact B|]. destruct (Cv t Ht) as (_ & C2 & _ & _). destruct (Cv u Hu) as (_ & _ & _ & C4). lra.
Qed.
Lemma outer_zone b : In b bs -> outer b = true -> ry1 (b_bbox b) < ry0 F \/ ry1 F < ry0 (b_bbox b).
Proof. intros Hx O. destruct (Hb b Hx) as (_ & [Z|Z]); [|exact Z]. apply coversb_iff in Z. unfold outer in O. fold F in Z. rewrite Z in O. discriminate O. Qed.
(** Lines outside of the frame. *)
Lemma outer_lines : Permutation (lines_in (filter outer bs)) (lines_in (above ++ below)).
Proof.
  set (io := fun l : line => qlt (ry1 (ln_bbox l)) (ry0 F) || qlt (ry1 F) (ry0 (ln_bbox l))).
  assert (E1 : lines_in (filter outer bs) = filter io (lines_in bs)).
  { pose proof block_box as BB. pose proof outer_zone as OZ. pose proof block_flat as BF. clear - BB OZ BF. induction bs as [|b bs' IH]; [reflexivity|]. cbn [filter]. change (lines_in (b :: bs')) with (b_lines b ++ lines_in bs'). rewrite filter_app, <- IH by (intros x; first [intros Hx; apply BB; right; exact Hx|intros Hx; apply OZ; right; exact Hx|intros l Hx; apply BF; right; exact Hx]).
    destruct (BB b (or_introl eq_refl)) as (_ & Cv & _). destruct (outer b) eqn:O.
    - change (lines_in (b :: filter outer bs')) with (b_lines b ++ lines_in (filter outer bs')). f_equal. symmetry. apply filter_all. intros l Hl. destruct (Cv l Hl) as (_ & C2 & _ & C4). unfold io. apply orb_true_iff. rewrite !qlt_iff. destruct (OZ b (or_introl eq_refl) O); [left|right]; lra.
    - assert (Z : filter io (b_lines b) = []); [|rewrite Z; reflexivity]. apply filter_none. intros l Hl. destruct (Cv l Hl) as (_ & C2 & _ & C4). unfold outer in O. apply negb_false_iff, coversb_iff in O. destruct O as (_ & O2 & _ & O4). destruct (BF b l (or_introl eq_refl) Hl) as (_ & _ & ((_ & Py) & _)).
      unfold io. apply orb_false_iff. split; [destruct (qlt_spec (ry1 (ln_bbox l)) (ry0 F))|destruct (qlt_spec (ry1 F) (ry0 (ln_bbox l)))]; try reflexivity; lra. }
  rewrite E1. eapply Permutation_trans; [apply filter_perm, Pl|]. unfold all_texts. rewrite !lines_in_app, !filter_app.
  pose proof Tx as (_ & _ & _ & _ & _ & A & B & _).
  assert (K : forall ts, (forall t, In t ts -> In t (all_texts g above below cells)) -> (forall t, In t ts -> ry1 (b_bbox t) < ry0 F \/ ry1 F < ry0 (b_bbox t)) -> filter io (lines_in ts) = lines_in ts).
  { intros ts H1 H2. apply filter_all. intros l Hl. apply in_flat_map in Hl. destruct Hl as (t & Ht & Hl). destruct (line_place m g r above below cells Tx t l (H1 t Ht) Hl) as (_ & _ & (_ & C2 & _ & C4) & _). unfold io. apply orb_true_iff. rewrite !qlt_iff. destruct (H2 t Ht); [left|right]; lra. }
  rewrite (K above), (K below); [|intros t Ht; unfold all_texts; apply in_or_app; right; apply in_or_app; right; exact Ht|intros t Ht; right; apply B, Ht|intros t Ht; unfold all_texts; apply in_or_app; left; exact Ht|intros t Ht; left; apply A, Ht].
  assert (Z : filter io (lines_in (in_grid g cells)) = []); [|rewrite Z; apply Permutation_refl]. apply filter_none. intros l Hl. apply in_flat_map in Hl. destruct Hl as (t & Ht & Hl). apply in_grid_In in Ht. destruct Ht as (i & j & Hi & Hj & Ht).
  destruct (cell_line m g r above below cells Tx i j t l Hi Hj Ht Hl) as (k & n & E & (_ & C2 & _ & C4) & _). destruct (tile_box d g r Hd1_ Ok_ T i j k n Hi Hj E) as (_ & (_ & F2 & _ & F4)). fold F in F2, F4.
  destruct (line_place m g r above below cells Tx t l (cell_in g above below cells i j t Hi Hj Ht) Hl) as (((_ & Py) & _) & _).
  unfold io. apply orb_false_iff. split; [destruct (qlt_spec (ry1 (ln_bbox l)) (ry0 F))|destruct (qlt_spec (ry1 F) (ry0 (ln_bbox l)))]; try reflexivity; lra.
Qed.
Lemma fop_app_l {A} (R : A -> A -> Prop) a b : ForallOrdPairs R (a ++ b) -> ForallOrdPairs R a /\ ForallOrdPairs R b /\ forall x y, In x a -> In y b -> R x y.
Proof.
  induction a as [|x a IH]; intros H; [split; [constructor|split; [exact H|intros x y []]]|]. cbn [app] in H. inversion H as [|? ? Fx H']; subst. destruct (IH H') as (A1 & A2 & A3). apply Forall_app in Fx. destruct Fx as (F1 & F2). rewrite Forall_forall in F2. split; [constructor; assumption|]. split; [exact A2|].
  intros u v [<-|Hu] Hv; [apply F2, Hv|apply A3; assumption].
Qed.
Lemma sides : Forall paragraph (above ++ below) /\ ForallOrdPairs other_block (above ++ below) /\ StronglySorted beneath (lines_in (above ++ below)).
Proof.
  pose proof Tx as (P & O & Ta & Tb & _ & A & B & _). destruct frame_proper with (1 := Hd1_) (2 := Ok_) as ((_ & PF) & _). split; [|split].
  - rewrite Forall_forall in *. intros t Ht. apply P. apply in_app_or in Ht. apply in_or_app. destruct Ht; [left; assumption|right; apply in_or_app; right; assumption].
  - apply fop_app_l in O. destruct O as (O1 & O2 & O3). apply fop_app_l in O2. destruct O2 as (_ & O2 & _). apply GridProof7.fop_app; [exact O1|exact O2|]. intros x y Hx Hy. apply O3; [exact Hx|apply in_or_app; right; exact Hy].
  - apply top_down_lines in Ta. apply top_down_lines in Tb. rewrite lines_in_app.
    assert (X : forall l k, In l (lines_in above) -> In k (lines_in below) -> beneath l k).
    { intros l k Hl Hk. apply in_flat_map in Hl. destruct Hl as (t & Ht & Hl). apply in_flat_map in Hk. destruct Hk as (u & Hu & Hk).
      destruct (line_place m g r above below cells Tx t l) as (_ & _ & (_ & _ & _ & C4) & _); [unfold all_texts; apply in_or_app; left; exact Ht|exact Hl|]. destruct (line_place m g r above below cells Tx u k) as (_ & _ & (_ & C2 & _ & _) & _); [unfold all_texts; apply in_or_app; right; apply in_or_app; right; exact Hu|exact Hk|].
      specialize (A t Ht). specialize (B u Hu). unfold beneath. lra. }
    revert Ta X. generalize (lines_in above). intros la Ta X. induction Ta as [|l la Sa IHa Fa]; [exact Tb|]. cbn [app]. constructor; [apply IHa; intros x k Hx; apply X; right; exact Hx|]. rewrite Forall_forall in *. intros k Hk. apply in_app_or in Hk. destruct Hk as [Hk|Hk]; [apply Fa, Hk|apply X; [left; reflexivity|exact Hk]].
Qed.

Theorem table_level fuel : exists rows n w1, layout_parse order rorder ids st (S (S fuel)) true w area (map LText bs) ss =
    Ok (LayoutModel.mkW w1 n, map LText (paras above) ++ LTable (frame_table g) (map (fun p => done (fst p) (snd p)) (combine (concat rows) (tile_texts g cells))) :: map LText (paras below)) /\
  rows_as_drawn g rows /\ (7 <= d -> borders_as_drawn g (shapes_at w (ls_strokes ss)) rows).
Proof.
  pose proof (tile_starts d g r Ok_ T) as Start.
  destruct (table_found order Ho st d g Hcn Hc Hw Hd Hd2 Ok_ Root Start w ss D All) as (w1 & rows & La & RD & Bo & Sb & Br); [intros k [Hk|Hk]; [apply Id, Hk|rewrite Fills in Hk; destruct Hk]|intros k _ Hk; rewrite Fills in Hk; destruct Hk|].
  pose proof (frame_proper d g Hd1_ Ok_) as (PF & DF).
  assert (Len : length (w_shapes w1) = length (w_shapes w)) by (clear - Sb; induction Sb; cbn [List.length]; congruence).
  assert (Kind : forall k, In k (ls_strokes ss) -> kind_eqb (sh_kind (shape_at w1 k)) KLink = false).
  { intros k Hk. assert (K0 : sh_kind (shape_at w k) = KStroke).
    { destruct D as (hs & vs & PS & _ & _ & Rh & Rv). assert (I : In (shape_at w k) (hs ++ vs)) by (eapply Permutation_in; [exact PS|apply in_map, Hk]). apply in_app_or in I. destruct I as [I|I]; apply In_nth_error in I; destruct I as (i & I); [apply Rh in I|apply Rv in I]; destruct I as (c & ty & u & ->); reflexivity. }
    destruct (Id k Hk) as (Lk & _). assert (E : sh_kind (shape_at w1 k) = sh_kind (shape_at w k)).
    { unfold shape_at. clear - Sb Lk. revert k Lk. induction Sb as [|s t l l' S Sb IH]; intros k Lk; [cbn in Lk; lia|]. destruct k as [|k]; cbn [nth]; [destruct S as [->|(x & _ & ->)]; destruct s; reflexivity|apply IH; cbn in Lk; lia]. }
    rewrite E, K0. reflexivity. }
  pose proof (cells_ready d m g r above below cells Hd1_ Ok_ T Tx rows bs RD Pl Hb V Al) as Rdy.
  destruct (filled order rorder ids st Ho Tol (map tb (inside g bs)) (concat rows) (tile_texts g cells) Rdy (w_next w1)) as (lcs & k1 & Fc & Pc).
  set (outs := filter outer bs). set (us := paras outs).
  assert (Ou : forall u, In u us -> exists b, In b bs /\ outer b = true /\ u = para_block b) by (intros u Hu; apply in_map_iff in Hu; destruct Hu as (b & <- & Hx); apply filter_In in Hx; exists b; tauto).
  (* tables assigned *)
  assert (FlT : forall k bs, flat k (map LText bs) = map FText bs) by (clear; intros k bs; revert k; induction bs as [|t l IH]; intros k; [reflexivity|cbn [map flat]; rewrite IH; reflexivity]).
  assert (TbT : forall bs, tabs (map LText bs) = []) by (clear; intros bs; unfold tabs; induction bs as [|t l IH]; [reflexivity|exact IH]).
  assert (Pla : exists S ks, place_tables ids w1 (map LText bs) ss [(frame_table g, concat rows)] = Ok (LayoutModel.mkW (w_shapes w1) k1, flat_map (back [LTable (frame_table g) lcs]) S, mkLS ks (ls_strokes ss) (ls_fills ss) (ls_lines ss) (ls_marks ss)) /\
    Permutation S (map FText us ++ [FTable 0 F]) /\ forall k, In k ks -> In k (ls_all ss)).
  { unfold place_tables. rewrite TbT, FlT. rewrite map_map. change (fun x => to_block (FText x)) with tb. cbn [map fst snd List.length tab_box]. unfold assign_to_tables. cbn [map ta_bbox]. change (tab_box (frame_table g)) with F.
    rewrite (assign_frame F bs PF) by (intros b Hx; split; [apply (block_box b Hx)|]; destruct (Hb b Hx) as (_ & [Z|Z]); [left; exact Z|right; unfold apart; fold F in Z; destruct Z; [right; right; right|right; right; left]; lra]).
    cbn [combine map fst snd ta_cells number_tables ta_bbox]. rewrite cells_any.
    assert (Eco : assign_cells (map info_box (concat rows)) (map tb (filter (fun b => coversb F (b_bbox b)) bs)) = contents_of (map tb (inside g bs)) (concat rows)) by (unfold assign_cells, contents_of; rewrite map_map; reflexivity).
    rewrite Eco. cbn [fill_tables fst snd hd tl]. change (w_next w1) with (w_next w1) in Fc. rewrite Fc. cbn [List.length seq combine map fst snd].
    assert (Ts : forall k, In k (ls_all ss) -> shape_target (new_boxes [(frame_table g, concat rows)]) (shape_at w1 k) = None) by (intros k Hk; unfold shape_target; rewrite (Br k (Sub k (or_introl Hk))); reflexivity).
    assert (Tsh : table_shapes w1 (new_boxes [(frame_table g, concat rows)]) (ls_all ss) 0 (LTable (frame_table g) lcs) = LTable (frame_table g) lcs).
    { unfold table_shapes. rewrite (filter_none _ (ls_all ss)); [reflexivity|]. intros k Hk. rewrite (Ts k Hk). reflexivity. }
    rewrite Tsh. eexists. eexists. split; [reflexivity|]. split.
    - eapply Permutation_trans; [apply Permutation_sym, sort_fblocks_perm|]. 
      assert (Eo : map (fun b => text_block (b_lines b)) (filter (fun b => negb (coversb F (b_bbox b))) bs) = map tb us).
      { unfold us, paras, outs. rewrite map_map. apply map_ext_in. intros b Hx. apply filter_In in Hx. apply text_block_hull. intros l Hl. apply GeomProof.proper_truthy. apply (block_flat b l (proj1 Hx) Hl). }
      rewrite Eo. rewrite filter_app. cbn [filter]. unfold blk_bool at 2. cbn [blk_bbox]. rewrite (GeomProof.proper_truthy F PF).
      rewrite (filter_all blk_bool (map tb us)); [|intros b Hx; apply in_map_iff in Hx; destruct Hx as (u & <- & Hu); destruct (Ou u Hu) as (b & Hx & _ & ->); apply GeomProof.proper_truthy; apply (para_range b Hx)].
      rewrite map_app, map_map. cbn [map of_block]. assert (Em : map (fun x => of_block (tb x)) us = map FText us); [|rewrite Em; apply Permutation_refl].
      apply map_ext_in. intros u Hu. destruct (Ou u Hu) as (b & _ & _ & ->). reflexivity.
    - intros k Hk. apply (PySort.py_sort_In) in Hk. apply filter_In in Hk. apply Hk. }
  destruct Pla as (S & ks & Pla & PS & Ks). apply one_table in PS. destruct PS as (a & b & -> & Pab). change F with (tab_box (frame_table g)) in Pla. rewrite back_one in Pla.
  assert (Fab : forall u, In u (a ++ b) -> exists x, In x bs /\ outer x = true /\ u = para_block x) by (intros u Hu; apply Ou; eapply Permutation_in; [apply Permutation_sym, Pab|exact Hu]).
  assert (Vab : pairwise vsep (a ++ b)).
  { apply (BorderProof3.pairwise_perm vsep ltac:(intros x y; unfold vsep; tauto) us (a ++ b) Pab). unfold us, paras, outs. apply (pairwise_map vsep vsep para_block (filter outer bs)); [apply pairwise_filter, V|].
    intros x y Hx Hy Vxy. apply filter_In in Hx. apply filter_In in Hy. destruct (para_range x (proj1 Hx)) as (_ & X1 & X2). destruct (para_range y (proj1 Hy)) as (_ & Y1 & Y2). unfold vsep in *. lra. }
  set (fs := map FText a ++ FTable 0 F :: map FText b) in *.
  assert (Ufs : forall f, In f fs -> f = FTable 0 F \/ exists x, In x bs /\ outer x = true /\ f = FText (para_block x)).
  { intros f Hf. unfold fs in Hf. apply in_app_or in Hf. destruct Hf as [Hf|[<-|Hf]]; [|left; reflexivity|]; right; apply in_map_iff in Hf; destruct Hf as (u & <- & Hu); (destruct (Fab u) as (x & X1 & X2 & ->); [apply in_or_app; tauto|]); exists x; auto. }
  assert (Ra : forall f, In f fs -> reads_across f).
  { intros f Hf. destruct (Ufs f Hf) as [->|(x & Hx & _ & ->)]; [reflexivity|]. unfold reads_across. cbn [f_elem b_elem e_dir]. apply flat_dir. intros l Hl. apply (block_flat x l Hx Hl). }
  assert (Vf : pairwise fsep fs).
  { apply (BorderProof3.pairwise_perm fsep ltac:(intros x y; unfold fsep; tauto) (FTable 0 F :: map FText (a ++ b)) fs); [unfold fs; rewrite map_app; apply Permutation_middle|]. constructor.
    - intros y Hy. apply in_map_iff in Hy. destruct Hy as (u & <- & Hu). destruct (Fab u Hu) as (x & Hx & Ox & ->). destruct (para_range x Hx) as (_ & R1 & R2). unfold fsep. cbn [f_box]. destruct (outer_zone x Hx Ox); [right|left]; lra.
    - apply (pairwise_map vsep fsep FText (a ++ b) Vab). intros x y _ _ Vxy. exact Vxy. }
  assert (Sm : stream order rorder st (LayoutModel.mkW (w_shapes w1) k1) area (map LText a ++ LTable (frame_table g) lcs :: map LText b) (mkLS ks (ls_strokes ss) (ls_fills ss) (ls_lines ss) (ls_marks ss)) = Ok (LayoutModel.mkW (w_shapes w1) k1, [])).
  { unfold stream. rewrite flat_one. change (tab_box (frame_table g)) with F. fold fs. rewrite (C65_plain_text order); [reflexivity|exact Ho| | |apply fsep_in_line; assumption].
    - intros f Hf. destruct (Ufs f Hf) as [->|(x & Hx & _ & ->)]; cbn [f_box].
      + split; [exact PF|]. unfold sub_lines. cbn [filter]. assert (E : ln_bool (table_line F) = true); [|rewrite E; discriminate]. unfold ln_bool, table_line. cbn [ln_bbox].
        apply GeomProof.proper_truthy. apply (GeomProof.proper_req F (rround F)); [|exact PF]. apply GeomProof.req_sym, rround_fixed. exact DF.
      + split; [apply (para_range x Hx)|]. unfold sub_lines. cbn [para_block b_lines]. rewrite normal_filter; [apply (Hb x Hx)|]. intros l Hl. apply (block_flat x l Hx Hl).
    - intros f Hf. cbn [ls_fills]. rewrite Fills. split; [|intros (s & [] & _)]. intros (t' & E & Fa). destruct (Ufs f Hf) as [->|(x & Hx & Ox & ->)]; [discriminate E|]. injection E as <-.
      destruct sides as (_ & _ & Ss). assert (In' : In x (filter outer bs)) by (apply filter_In; split; assumption). destruct (stack_part (above ++ below) (filter outer bs) x Ss outer_lines In') as (s & Ps & Sq).
      cbn [para_block b_lines] in Fa. rewrite (flow_down order (flow_tol st) (separate st) (b_lines x) s Ho Tol) in Fa; [discriminate Fa|intros l Hl; apply (block_flat x l Hx Hl)|exact Ps|exact Sq]. }
  destruct sides as (Sp & So & Ss).
  assert (Lab : Permutation (lines_in (a ++ b)) (lines_in (above ++ below))).
  { eapply Permutation_trans; [|exact outer_lines]. unfold lines_in. eapply Permutation_trans; [apply Permutation_flat_map, Permutation_sym, Pab|]. unfold us, paras. rewrite flat_map_concat_map, map_map, <- flat_map_concat_map. apply Permutation_refl. }
  set (out := map (fun t => FText (para_block t)) above ++ FTable 0 F :: map (fun t => FText (para_block t)) below).
  assert (Sbk : forall ids', split_back order ids' (flow_tol st) (separate st) fs = Some out).
  { intros ids'. apply (split_mixed order ids' (flow_tol st) (separate st) fs (above ++ below) out Ho Tol Sp So Ss).
    - unfold fs. rewrite texts_one. exact Lab.
    - unfold fs. rewrite texts_one. intros x Hx. apply (stack_part (above ++ below) (a ++ b) x Ss Lab Hx).
    - unfold fs. rewrite tables_one. intros f [<-|[]]. unfold f_bool. cbn [f_box]. apply GeomProof.proper_truthy, PF.
    - unfold fs. rewrite tables_one, map_app. unfold out. cbn [app]. apply Permutation_middle.
    - pose proof Sp as Sp'. apply Forall_app in Sp'. destruct Sp' as (Pa & Pb).
      pose proof Tx as (_ & _ & Ta & Tb & _ & A & B & _). apply top_down_lines in Ta. apply top_down_lines in Tb. pose proof (para_higher above Pa Ta) as Ha. pose proof (para_higher below Pb Tb) as Hbl. rewrite Forall_forall in Pa, Pb.
      assert (Bx : forall t, paragraph t -> ry0 (b_bbox t) <= ry0 (hull (b_lines t)) /\ ry0 (hull (b_lines t)) < ry1 (b_bbox t)).
      { intros t (_ & (_ & Pt & Cv) & Ne & _ & Hl). destruct (hull_facts (b_lines t) Ne) as (_ & (l & Hl1 & El) & _); [intros l Hl'; destruct (Hl l Hl') as ((P1 & D1 & _) & _); split; assumption|]. destruct (Cv l Hl1) as ((_ & C2 & _ & C4) & _). destruct (Hl l Hl1) as (((_ & Py) & _) & _). lra. }
      destruct PF as (_ & PFy). fold F in PFy.
      assert (Mid : Forall (higher (FTable 0 F)) (map (fun t => FText (para_block t)) below)).
      { rewrite Forall_forall. intros f Hf. apply in_map_iff in Hf. destruct Hf as (t & <- & Ht). unfold higher. cbn [f_box para_block b_bbox]. specialize (B t Ht). fold F in B. destruct (Bx t (Pb t Ht)). lra. }
      unfold out. revert Ha. assert (Top : forall t, In t above -> Forall (higher (FText (para_block t))) (FTable 0 F :: map (fun t => FText (para_block t)) below)).
      { intros t Ht. specialize (A t Ht). fold F in A. destruct (Bx t (Pa t Ht)). constructor; [unfold higher; cbn [f_box para_block b_bbox]; lra|]. rewrite Forall_forall in *. intros f Hf. specialize (Mid f Hf). unfold higher in *. cbn [f_box para_block b_bbox] in *. lra. }
      clear - Top Mid Hbl. induction above as [|t l IH]; intros Ha; [cbn [map app]; constructor; [exact Hbl|exact Mid]|]. cbn [map app] in *. inversion Ha as [|? ? S1 F1]; subst. constructor; [apply IH; [intros x Hx; apply Top; right; exact Hx|exact S1]|]. apply Forall_app. split; [exact F1|apply Top; left; reflexivity]. }
  set (w2 := LayoutModel.mkW (w_shapes w1) (k1 + length out)).
  destruct (Pc fuel w2) as (n & En).
  exists rows, n, (w_shapes w2). split; [|split; [exact RD|exact Bo]].
  cbn [layout_parse]. unfold level. rewrite Lt. cbn [bind fst snd]. cbn [place_tables]. cbn [bind fst snd]. rewrite La. cbn [bind fst snd]. rewrite Pla. cbn [bind fst snd]. rewrite Sm. cbn [bind fst snd place_tables]. rewrite flat_one, tabs_one. change (tab_box (frame_table g)) with F. fold fs. rewrite Sbk. cbn [bind fst snd w_shapes w_next].
  assert (Sty : style_shapes w2 (mkLS ks (ls_strokes ss) (ls_fills ss) (ls_lines ss) (ls_marks ss)) = ls_lines ss).
  { unfold style_shapes. cbn [ls_lines ls_marks ls_all]. rewrite Marks. rewrite (filter_none _ ks); [rewrite app_nil_r; reflexivity|]. intros k Hk. apply Kind. apply Sub. left. apply Ks, Hk. }
  unfold text_format. fold w2. rewrite Sty. rewrite format_borders by (intros k Hk; split; [apply Br, Sub; right; exact Hk|cbn [w_shapes w2]; rewrite Len; apply Id, Sub; right; exact Hk]). cbn [fst snd].
  unfold out. rewrite <- !(map_map para_block FText). change F with (tab_box (frame_table g)). rewrite back_one. rewrite (parse_one _ w2 (frame_table g) lcs _ _ _ _ En). reflexivity.
Qed.
End Level.
