(** One level: text is conserved when tables are filled. *)
From Verif Require GeomProof.
From Verif Require Import LayoutSpec LayoutProof FlowProof FlowProof2 AssignProof AssignProps TextProof.
From Coq Require Import List Permutation Lia Lqa.
Import ListNotations.
Open Scope Q_scope.

Lemma apart_In {A} (R : A -> A -> Prop) l a b : ForallOrdPairs R l -> In a l -> In b l -> a = b \/ R a b \/ R b a.
Proof.
  induction 1 as [|x l F _ IH]; intros Ha Hb; [destruct Ha|]. rewrite Forall_forall in F. destruct Ha as [->|Ha], Hb as [->|Hb]; auto.
Qed.
Lemma text_block_fold ls : (forall l, In l ls -> box (ln_bbox l)) -> forall r k, fold_left (fun b l => match b with
                        | BText r k => if ln_bool l then BText (union_bbox r (ln_bbox l)) (k ++ [l]) else b
                        | BTable _ _ => b
                        end) ls (BText r k) = BText (fold_left (fun b x => union_bbox b (ln_bbox x)) ls r) (k ++ ls).
Proof.
  induction ls as [|x t IH]; intros H r k; cbn [fold_left]; [rewrite app_nil_r; reflexivity|].
  assert (B : ln_bool x = true) by (unfold ln_bool; apply GeomProof.proper_truthy; apply H; left; reflexivity). rewrite B, IH by (intros y Hy; apply H; right; exact Hy).
  rewrite <- app_assoc. reflexivity.
Qed.
Lemma text_block_bool ls : (forall l, In l ls -> box (ln_bbox l)) -> blk_bool (text_block ls) = false -> ls = [].
Proof.
  intros H. destruct ls as [|l ls]; [reflexivity|]. intros E. exfalso. unfold text_block in E. rewrite text_block_fold in E by exact H. unfold blk_bool in E. cbn [blk_bbox] in E.
  assert (Bx : box (fold_left (fun b x => union_bbox b (ln_bbox x)) (l :: ls) rect0)) by (apply fold_boxes0; [reflexivity|exact H]).
  rewrite GeomProof.proper_truthy in E by apply Bx. discriminate.
Qed.
Lemma text_block_glyphs ls : (forall l, In l ls -> box (ln_bbox l)) -> line_glyphs (blk_lines (text_block ls)) = line_glyphs ls.
Proof. intros H. unfold text_block. rewrite text_block_fold by exact H. reflexivity. Qed.
Lemma none_nth {A B} (l : list A) j : nth j (@none_of A B l) [] = [].
Proof. unfold none_of. revert j. induction l as [|x l IH]; intros [|j]; try reflexivity. apply IH. Qed.
Lemma outside_assign ls b tables : Forall proper tables -> (forall t, In t tables -> AssignSpec.apart t (b_bbox b)) -> proper (b_bbox b) ->
  assign_block (as_block b) ls tables = Some (none_of tables, [text_block ls]).
Proof.
  intros P A Pb. induction tables as [|t tl IH]; cbn [assign_block]; [reflexivity|]. inversion P as [|? ? Pt Pr]; subst. cbn [as_block blk_bbox].
  assert (Z : shared t (b_bbox b) == 0) by (apply shared_apart, A; left; reflexivity).
  rewrite (rcontains_coversb _ _ Pt Pb). destruct (coversb t (b_bbox b)) eqn:Cu.
  - exfalso. apply coversb_iff in Cu. rewrite (shared_covers _ _ Cu Pb) in Z. pose proof (area_pos _ Pb). lra.
  - rewrite (rintersects_shared _ _ Pt Pb). destruct (qlt_spec 0 (shared t (b_bbox b))); [lra|]. cbn [negb]. fold (as_block b). rewrite (IH Pr (fun u Hu => A u (or_intror Hu))). reflexivity.
Qed.
(** Distribution over the tables. *)
Section Tables.
Variable ts : list new_table.
Variable Ht : tidy ts.
Let tables := new_boxes ts.
Lemma zip_app_nth {A} (a : list (list A)) : forall b j, List.length a = List.length b -> nth j (zip_app a b) [] = nth j a [] ++ nth j b [].
Proof. induction a as [|u a IH]; intros [|v b] j L; try discriminate L; cbn [zip_app]; [destruct j; reflexivity|]. destruct j as [|j]; [reflexivity|]. cbn [nth]. apply IH. injection L as L. exact L. Qed.
Lemma zip_app_length {A} (a : list (list A)) : forall b, List.length a = List.length b -> List.length (zip_app a b) = List.length a.
Proof. induction a as [|u a IH]; intros [|v b] L; try discriminate L; [reflexivity|]. cbn [zip_app List.length]. f_equal. apply IH. injection L as L. exact L. Qed.
Lemma concat_zip {A} (g : A -> list (glyph * list style)) (a : list (list A)) : forall b, List.length a = List.length b ->
  Permutation (flat_map g (concat (zip_app a b))) (flat_map g (concat a) ++ flat_map g (concat b)).
Proof.
  induction a as [|u a IH]; intros [|v b] L; try discriminate L; [constructor|]. cbn [zip_app concat]. injection L as L. rewrite !flat_map_app, (IH b L).
  rewrite <- !app_assoc. apply Permutation_app_head. rewrite !app_assoc. apply Permutation_app_tail. apply Permutation_app_comm.
Qed.
Lemma none_concat {A B} (l : list A) : concat (@none_of A B l) = [].
Proof. unfold none_of. induction l; [reflexivity|exact IHl]. Qed.
Lemma assign_bs bs : (forall b, In b bs -> nested_block (as_block b) /\ (in_cells ts b \/ outside ts b)) ->
  exists r k, assign_all (map as_block bs) tables = Some (r, k) /\ List.length r = List.length ts /\
    (forall i x, In x (nth i r []) -> exists t b, nth_error ts i = Some t /\ In b bs /\ x = as_block b /\ in_cells [t] b) /\
    (forall x, In x k -> exists b, In b bs /\ x = text_block (b_lines b)) /\
    Permutation (AssignSpec.block_glyphs (concat r ++ k)) (AssignSpec.block_glyphs (map as_block bs)).
Proof.
  induction bs as [|b bs IH]; intros H; cbn [map assign_all].
  - do 2 eexists. split; [reflexivity|]. split; [unfold none_of, tables, new_boxes; rewrite !map_length; reflexivity|]. split; [intros i x Hx; rewrite none_nth in Hx; destruct Hx|]. split; [intros x []|].
    rewrite none_concat. constructor.
  - destruct (IH (fun x Hx => H x (or_intror Hx))) as (r & k & E & L & R1 & R2 & P). rewrite E. destruct (H b (or_introl eq_refl)) as [Nb Hb]. clear IH H E.
    assert (X : exists r0 k0, assign_block (as_block b) (b_lines b) tables = Some (r0, k0) /\ List.length r0 = List.length ts /\
       (forall i x, In x (nth i r0 []) -> x = as_block b /\ exists t, nth_error ts i = Some t /\ in_cells [t] b) /\ (forall x, In x k0 -> x = text_block (b_lines b)) /\
       AssignSpec.block_glyphs (concat r0 ++ k0) = line_glyphs (b_lines b)).
    { destruct Hb as [(t & It & Ct & Hc)|Hb].
      - apply In_nth_error in It. destruct It as (i & Ei).
        assert (Et : nth_error tables i = Some (tab_box (fst t))) by (unfold tables, new_boxes; apply (map_nth_error (fun t : new_table => tab_box (fst t))); exact Ei). destruct (nth_error_split _ _ Et) as (t1 & t2 & Es & Li).
        destruct Ht as (P1 & P2 & _). fold tables in P1, P2. pose proof (C32_contained_block t1 (fst t) t2 (as_block b)) as C. rewrite <- Es in C. specialize (C P1 P2 (proj1 (proj1 Nb)) Ct).
        cbn [blk_lines as_block] in C. exists (none_of t1 ++ [as_block b] :: none_of t2), []. split; [exact C|]. split.
        + rewrite app_length. cbn [List.length]. unfold none_of. rewrite !map_length. assert (Lt : List.length ts = List.length tables) by (symmetry; apply map_length). rewrite Lt, Es, app_length. reflexivity.
        + split; [|split; [intros x []|]].
          * intros j x Hx. assert (Ln : List.length (@none_of rect block t1) = i) by (unfold none_of; rewrite map_length; exact Li).
            destruct (Nat.lt_ge_cases j i) as [Lj|Lj]; [rewrite app_nth1 in Hx by lia; rewrite none_nth in Hx; destruct Hx|].
            rewrite app_nth2 in Hx by lia. rewrite Ln in Hx. destruct (j - i)%nat as [|m] eqn:Em; cbn [nth] in Hx; [|rewrite none_nth in Hx; destruct Hx].
            destruct Hx as [<-|[]]. split; [reflexivity|]. exists t. replace j with i by lia. split; [exact Ei|]. exists t. split; [left; reflexivity|]. split; assumption.
          * rewrite app_nil_r, concat_app. cbn [concat]. rewrite !none_concat. unfold AssignSpec.block_glyphs. cbn [app flat_map as_block blk_lines]. rewrite app_nil_r. reflexivity.
      - assert (O := outside_assign (b_lines b) b tables (proj1 Ht)). exists (none_of tables), [text_block (b_lines b)]. split; [apply O; [|apply (proj1 (proj1 Nb))]|].
        + intros u Hu. unfold tables in Hu. apply in_map_iff in Hu. destruct Hu as (t & <- & It). apply Hb. exact It.
        + split; [unfold none_of, tables, new_boxes; rewrite !map_length; reflexivity|]. split; [intros i x Hx; rewrite none_nth in Hx; destruct Hx|]. split; [intros x [<-|[]]; reflexivity|].
          rewrite none_concat. unfold AssignSpec.block_glyphs. cbn [app flat_map]. rewrite app_nil_r. apply text_block_glyphs. intros l Hl. destruct Nb as (_ & Nb). apply (proj1 (proj1 (Nb l Hl))). }
    destruct X as (r0 & k0 & E0 & L0 & A1 & A2 & A3). cbn [blk_lines as_block]. fold (as_block b). rewrite E0. do 2 eexists. split; [reflexivity|].
    assert (Lr : List.length r0 = List.length r) by congruence. split; [rewrite zip_app_length by exact Lr; exact L0|]. split; [|split].
    + intros i x Hx. rewrite zip_app_nth in Hx by exact Lr. apply in_app_or in Hx. destruct Hx as [Hx|Hx].
      * destruct (A1 i x Hx) as (-> & t & Et & Ic). exists t, b. repeat split; auto. left. reflexivity.
      * destruct (R1 i x Hx) as (t & b' & Et & Ib & -> & Ic). exists t, b'. repeat split; auto. right. exact Ib.
    + intros x Hx. apply in_app_or in Hx. destruct Hx as [Hx|Hx]; [exists b; split; [left; reflexivity|apply A2; exact Hx]|]. destruct (R2 x Hx) as (b' & Ib & ->). exists b'. split; [right; exact Ib|reflexivity].
    + unfold AssignSpec.block_glyphs in *. rewrite !flat_map_app in *. rewrite (concat_zip _ _ _ Lr). cbn [flat_map as_block blk_lines]. rewrite <- A3, <- P.
      rewrite <- !app_assoc. apply Permutation_app_head. rewrite !app_assoc. apply Permutation_app_tail. apply Permutation_app_comm.
Qed.
End Tables.
(** Contents of cells. *)
Lemma back_text bs : forall ids k, (forall x, In x bs -> exists r ls, x = BText r ls) -> text_of (flat_map (back []) (tag ids k (map of_block bs))) = AssignSpec.block_glyphs bs.
Proof.
  induction bs as [|x bs IH]; intros ids k H; [reflexivity|]. destruct (H x (or_introl eq_refl)) as (r & ls & ->). cbn [map of_block tag flat_map back app]. unfold text_of in *. cbn [flat_map block_text b_lines].
  rewrite IH by (intros y Hy; apply H; right; exact Hy). unfold AssignSpec.block_glyphs at 2. cbn [flat_map blk_lines]. f_equal.
  unfold line_glyphs. clear. induction ls as [|l ls IH]; [reflexivity|]. cbn [map flat_map]. rewrite IH, set_pid_spans. reflexivity.
Qed.
Lemma fill_cells_at ids cells : forall k contents i c, nth_error (fst (fill_cells ids k [] cells contents)) i = Some c ->
  exists m, nth_error cells i = Some (fst (fst c)) /\ snd (fst c) = no_shapes /\ snd c = flat_map (back []) (tag ids m (map of_block (nth i contents []))).
Proof.
  induction cells as [|x cells IH]; intros k contents i c E; cbn [fill_cells] in E; [destruct i; discriminate|].
  destruct (fill_cells ids (k + List.length (hd [] contents)) [] cells (tl contents)) as [r k'] eqn:Er. cbn [fst] in E. destruct i as [|i].
  - injection E as <-. exists k. cbn [fst snd nth_error]. repeat split. destruct contents; reflexivity.
  - cbn [nth_error] in E. specialize (IH (k + List.length (hd [] contents))%nat (tl contents) i c). rewrite Er in IH. destruct (IH E) as (m & H1 & H2 & H3). exists m. split; [exact H1|]. split; [exact H2|].
    rewrite H3. destruct contents; [destruct i; reflexivity|reflexivity].
Qed.
Lemma fill_cells_length ids cells : forall k contents, List.length (fst (fill_cells ids k [] cells contents)) = List.length cells.
Proof.
  induction cells as [|x cells IH]; intros k contents; cbn [fill_cells]; [reflexivity|]. specialize (IH (k + List.length (hd [] contents))%nat (tl contents)).
  destruct (fill_cells _ _ _ _ _) as [r k']. cbn [fst List.length] in *. congruence.
Qed.
Lemma fill_tables_at ids ts : forall k contents i b, nth_error (fst (fill_tables ids k [] ts contents)) i = Some b ->
  exists t m, nth_error ts i = Some t /\ b = LTable (fst t) (fst (fill_cells ids m [] (snd t) (nth i contents []))).
Proof.
  induction ts as [|t ts IH]; intros k contents i b E; cbn [fill_tables] in E; [destruct i; discriminate|].
  destruct (fill_cells ids k [] (snd t) (hd [] contents)) as [cs k1] eqn:Ec. destruct (fill_tables ids k1 [] ts (tl contents)) as [l k2] eqn:El. cbn [fst] in E. destruct i as [|i].
  - injection E as <-. exists t, k. split; [reflexivity|]. destruct contents; cbn [hd nth] in *; rewrite Ec; reflexivity.
  - cbn [nth_error] in E. specialize (IH k1 (tl contents) i b). rewrite El in IH. destruct (IH E) as (t' & m & H1 & H2). exists t', m. split; [exact H1|]. rewrite H2. destruct contents; [destruct i; reflexivity|reflexivity].
Qed.
Lemma fill_tables_length ids ts : forall k contents, List.length (fst (fill_tables ids k [] ts contents)) = List.length ts.
Proof.
  induction ts as [|t ts IH]; intros k contents; cbn [fill_tables]; [reflexivity|]. destruct (fill_cells _ _ _ _ _) as [cs k1]. specialize (IH k1 (tl contents)). destruct (fill_tables _ _ _ _ _) as [l k2].
  cbn [fst List.length] in *. congruence.
Qed.
Lemma cells_text ids m cells contents : List.length contents = List.length cells -> (forall c x, In c contents -> In x c -> exists r ls, x = BText r ls) ->
  block_text (LTable (mkTab rect0 [] true) (fst (fill_cells ids m [] cells contents))) = flat_map AssignSpec.block_glyphs contents.
Proof.
  revert m contents. induction cells as [|x cells IH]; intros m contents L H; destruct contents as [|c contents]; try discriminate L; [reflexivity|].
  cbn [fill_cells hd tl]. specialize (IH (m + List.length c)%nat contents ltac:(injection L as L; exact L) (fun c0 x0 H0 => H c0 x0 (or_intror H0))).
  destruct (fill_cells ids (m + List.length c) [] cells contents) as [r k']. cbn [fst block_text flat_map] in *. f_equal; [|exact IH].
  apply (back_text c ids m). intros y Hy. apply (H c y (or_introl eq_refl) Hy).
Qed.
Lemma back_flat bs : forall pre, flat_map (back (pre ++ tabs bs)) (flat (List.length pre) bs) = bs.
Proof.
  induction bs as [|b bs IH]; intros pre; [reflexivity|]. destruct b as [t|bb cs]; cbn [flat flat_map].
  - change (tabs (LText t :: bs)) with (tabs bs). rewrite IH. reflexivity.
  - change (tabs (LTable bb cs :: bs)) with (LTable bb cs :: tabs bs). cbn [back]. rewrite nth_error_app2, Nat.sub_diag by lia. cbn [nth_error app]. f_equal.
    specialize (IH (pre ++ [LTable bb cs])). rewrite <- app_assoc in IH. cbn [app] in IH. rewrite app_length in IH. cbn [List.length] in IH. rewrite Nat.add_1_r in IH. exact IH.
Qed.
Lemma resort_perm bs : Permutation (resort bs) bs.
Proof.
  unfold resort. rewrite <- (back_flat bs []) at 3. cbn [app List.length]. apply Permutation_flat_map. apply Permutation_sym, sort_fblocks_perm.
Qed.
Lemma text_perm a b : Permutation a b -> Permutation (text_of a) (text_of b).
Proof. apply Permutation_flat_map. Qed.
Lemma cell_shapes_text w l c : Permutation (text_of (snd (cell_shapes w l c))) (text_of (snd c)) /\ lc_info (cell_shapes w l c) = lc_info c.
Proof. unfold cell_shapes. destruct (rect_bool _); [|split; reflexivity]. cbn [snd]. split; [apply text_perm, resort_perm|reflexivity]. Qed.
Lemma table_shapes_text w boxes l j b : Permutation (block_text (table_shapes w boxes l j b)) (block_text b).
Proof.
  unfold table_shapes. destruct (filter _ l); [reflexivity|]. destruct b as [t|bb cs]; [reflexivity|]. cbn [block_text]. induction cs as [|c cs IH]; [reflexivity|]. cbn [map flat_map].
  apply Permutation_app; [apply cell_shapes_text|exact IH].
Qed.
Lemma number_back (l : list lblock) : forall (ts : list tbl) pre, List.length l = List.length ts -> flat_map (back (pre ++ l)) (map of_block (number_tables (List.length pre) ts)) = l.
Proof.
  induction l as [|x l IH]; intros [|t ts] pre L; try discriminate L; [reflexivity|]. cbn [number_tables map of_block flat_map back]. rewrite nth_error_app2, Nat.sub_diag by lia. cbn [nth_error app].
  f_equal. specialize (IH ts (pre ++ [x]) ltac:(injection L as L; exact L)). rewrite <- app_assoc in IH. cbn [app] in IH. rewrite app_length in IH. cbn [List.length] in IH. rewrite Nat.add_1_r in IH. exact IH.
Qed.
Lemma shapes_indexed (f : nat -> lblock -> lblock) new : (forall j b, Permutation (block_text (f j b)) (block_text b)) ->
  forall n, Permutation (text_of (map (fun p => f (fst p) (snd p)) (combine (seq n (List.length new)) new))) (text_of new).
Proof.
  intros H. unfold text_of. induction new as [|b new IH]; intros n; [constructor|]. cbn [List.length seq combine map flat_map fst snd]. apply Permutation_app; [apply H|apply IH].
Qed.
Lemma kept_text k ids new : (forall x, In x k -> exists b : CleanModel.tblock, x = text_block (b_lines b) /\ forall l, In l (b_lines b) -> box (ln_bbox l)) ->
  text_of (flat_map (back new) (map of_block (filter blk_bool k))) = AssignSpec.block_glyphs k /\ (ids : nat -> nat) = ids.
Proof.
  intros H. split; [|reflexivity]. induction k as [|x k IH]; [reflexivity|]. destruct (H x (or_introl eq_refl)) as (b & E & Hb). specialize (IH (fun y Hy => H y (or_intror Hy))).
  unfold AssignSpec.block_glyphs in *. cbn [filter flat_map]. assert (Ex : exists r, x = BText r (b_lines b)).
  { rewrite E. unfold text_block. rewrite text_block_fold by exact Hb. eexists. reflexivity. }
  destruct Ex as (r & Ex). destruct (blk_bool x) eqn:B.
  - rewrite Ex at 1. cbn [map of_block flat_map back app]. unfold text_of in *. cbn [flat_map block_text b_lines]. rewrite IH. rewrite Ex. reflexivity.
  - rewrite E in B. apply text_block_bool in B; [|exact Hb]. rewrite Ex, B. exact IH.
Qed.
(** What the cells of one table hold. *)
Lemma contents_ok t (l : list block) : tidy [t] -> (forall x, In x l -> exists b, x = as_block b /\ nested_block (as_block b) /\ in_cells [t] b) ->
  let con := assign_cells (map info_box (snd t)) l in
  Permutation (flat_map AssignSpec.block_glyphs con) (AssignSpec.block_glyphs l) /\
  (forall i c g, nth_error (snd t) i = Some c -> In g (AssignSpec.block_glyphs (nth i con [])) -> Rect.covers (info_box c) (glyph_box (fst g))).
Proof.
  intros (T1 & T2 & T3) H con. destruct (T3 t (or_introl eq_refl)) as [Pc Ap]. split.
  - apply C33_exactly_once; [exact Pc|exact Ap|]. intros x Hx. destruct (H x Hx) as (b & -> & Nb & (t' & [<-|[]] & Ct & Hc)). split; [exact Nb|exact Hc].
  - intros i c g Ei Hg. unfold con, assign_cells in Hg.
    assert (En : nth i (map (fun c => if rect_bool c then flat_map (assign_cell c) l else []) (map info_box (snd t))) [] = if rect_bool (info_box c) then flat_map (assign_cell (info_box c)) l else []).
    { apply nth_error_nth. rewrite map_map. apply (map_nth_error (fun x => if rect_bool (info_box x) then flat_map (assign_cell (info_box x)) l else [])). exact Ei. }
    rewrite En in Hg. destruct (rect_bool (info_box c)) eqn:B; [|destruct Hg].
    assert (Ic : In (info_box c) (cell_boxes t)) by (apply filter_In; split; [apply in_map; eapply nth_error_In; exact Ei|exact B]).
    rewrite Forall_forall in Pc. unfold AssignSpec.block_glyphs in Hg. apply in_flat_map in Hg. destruct Hg as (y & Hy & Hg). apply in_flat_map in Hy. destruct Hy as (x & Hx & Hy).
    destruct (H x Hx) as (b & -> & Nb & (t' & [<-|[]] & Ct & Hc)).
    assert (Hg' : In g (AssignSpec.block_glyphs (assign_cell (info_box c) (as_block b)))) by (apply in_flat_map; exists y; auto). clear y Hy Hg.
    destruct (C33_cell_content (info_box c) (as_block b) (Pc _ Ic) Nb) as (K1 & K2). pose proof (proj1 (proj1 Nb)) as Pb. cbn [as_block blk_bbox blk_lines] in *.
    assert (Sep : forall c1, In c1 (cell_boxes t) -> c1 = info_box c \/ AssignSpec.apart c1 (info_box c)).
    { intros c1 I1. destruct (apart_In _ _ _ _ Ap I1 Ic) as [E|[E|E]]; auto. right. apply apart_sym. exact E. }
    destruct Hc as [(c0 & I0 & C0)|(Hna & Hall)].
    + destruct (Sep c0 I0) as [E|E].
      * rewrite E in C0. assert (In g (line_glyphs (b_lines b))).
        { destruct (almost_inside (info_box c) (b_bbox b)); [rewrite K1 in Hg' by reflexivity; unfold AssignSpec.block_glyphs in Hg'; cbn [flat_map as_block blk_lines] in Hg'; rewrite app_nil_r in Hg'; exact Hg'|].
          rewrite K2 in Hg' by reflexivity. apply filter_In in Hg'. apply Hg'. }
        destruct (block_glyph_box (as_block b) g Nb H0) as (_ & C). eapply GeomProof.covers_trans; [exact C0|exact C].
      * exfalso. assert (Ab : AssignSpec.apart (info_box c) (b_bbox b)) by (apply (apart_sub _ c0); [apply apart_sym; exact E|exact C0]).
        rewrite K2 in Hg' by (apply almost_apart; first [exact Pb|exact Ab|apply Pc; exact Ic]). apply filter_In in Hg'. destruct Hg' as [G1 G2]. destruct (block_glyph_box (as_block b) g Nb G1) as (Pg & Cg).
        rewrite belongs_apart in G2; [discriminate|apply Pc; exact Ic|exact Pg|exact (apart_sub _ _ _ Ab Cg)].
    + rewrite K2 in Hg' by (apply Hna; exact Ic). apply filter_In in Hg'. destruct Hg' as [G1 G2]. destruct (Hall g G1) as (c1 & I1 & C1). destruct (Sep c1 I1) as [E|E]; [rewrite <- E; exact C1|].
      exfalso. destruct (block_glyph_box (as_block b) g Nb G1) as (Pg & Cg). rewrite belongs_apart in G2; [discriminate|apply Pc; exact Ic|exact Pg|].
      apply (apart_sub _ c1); [apply apart_sym; exact E|exact C1].
Qed.
Lemma place_conserves ids w (bs : list CleanModel.tblock) ss ts : ts <> [] -> tidy ts ->
  (forall b, In b bs -> nested_block (as_block b) /\ (in_cells ts b \/ outside ts b)) ->
  exists w' out ss', place_tables ids w (map LText bs) ss ts = Ok (w', out, ss') /\
    Permutation (text_of out) (text_of (map LText bs)) /\
    (forall bb cs c g, In (LTable bb cs) out -> In c cs -> In g (text_of (lc_blocks c)) -> Rect.covers (info_box (lc_info c)) (glyph_box (fst g))) /\
    (forall x, In x (ls_all ss') <-> In x (ls_all ss) /\ ShapeModel.shape_target (new_boxes ts) (shape_at w x) = None) /\
    (forall j t, nth_error ts j = Some t -> exists cs, In (LTable (fst t) cs) out /\ map (fun c : lcell => lc_info c) cs = snd t /\
       forall c x, In c cs -> In x (ls_all (lc_shapes c)) <-> In x (ls_all ss) /\ ShapeModel.shape_target (new_boxes ts) (shape_at w x) = Some j /\
         rect_bool (info_box (lc_info c)) = true /\ rect_bool (rinter (info_box (lc_info c)) (sh_bbox (shape_at w x))) = true /\ shape_bool (shape_at w x) = true).
Proof.
  intros Ne Ht H. unfold place_tables. destruct ts as [|t0 ts0] eqn:Ets; [congruence|]. rewrite <- Ets in *. clear Ne.
  assert (F : forall k, flat k (map LText bs) = map FText bs) by (clear; induction bs as [|t r IH]; intros k; [reflexivity|cbn [map flat]; rewrite IH; reflexivity]).
  assert (Tb : tabs (map LText bs) = []) by (clear; unfold tabs; induction bs as [|t r IH]; [reflexivity|exact IH]).
  cbv zeta. rewrite F, Tb, map_map. cbn [List.length].
  change (fun x : CleanModel.tblock => to_block (FText x)) with as_block. set (tas := map (fun t : new_table => mkTbl (fst t) (map info_box (snd t))) ts).
  destruct (assign_bs ts Ht bs H) as (r & k & E & L & R1 & R2 & P).
  assert (Em : map ta_bbox tas = new_boxes ts) by (unfold tas; rewrite map_map; reflexivity).
  assert (Nt : tas <> []) by (unfold tas; rewrite Ets; discriminate).
  assert (Ea : exists contents, assign_to_tables 0 (map as_block bs) tas = Some (contents, filter blk_bool (k ++ number_tables 0 tas)) /\
     forall i t, nth_error ts i = Some t -> nth i contents [] = assign_cells (map info_box (snd t)) (nth i r [])).
  { unfold assign_to_tables. destruct tas as [|ta0 tas0] eqn:Eta; [congruence|]. rewrite <- Eta in *. rewrite Em, E. eexists. split; [reflexivity|].
    intros i t Ei. apply nth_error_nth.
    assert (Er : nth_error r i = Some (nth i r [])) by (apply nth_error_nth'; rewrite L; apply nth_error_Some; congruence).
    assert (Ec : nth_error (combine tas r) i = Some (mkTbl (fst t) (map info_box (snd t)), nth i r [])).
    { clear - Ei Er. unfold tas. revert i r Ei Er. induction ts as [|u v IH]; intros [|i] [|y s] Ei Er; try discriminate; cbn [map combine nth_error nth] in *.
      - injection Ei as ->. reflexivity.
      - apply IH; assumption. }
    erewrite map_nth_error; [|exact Ec]. cbn [fst snd ta_cells]. destruct (nth i r []) as [|x y]; [|reflexivity].
    f_equal. unfold assign_cells. apply map_ext. intros c. destruct (rect_bool c); reflexivity. }
  destruct Ea as (contents & Ea & Con). rewrite Ea. destruct (fill_tables ids (w_next w) [] ts contents) as [new kk] eqn:Ef.
  do 3 eexists. split; [reflexivity|].
  set (new' := map (fun p => table_shapes w (new_boxes ts) (ls_all ss) (fst p) (snd p)) (combine (seq 0 (List.length new)) new)).
  assert (Ln : List.length new = List.length ts) by (pose proof (fill_tables_length ids ts (w_next w) contents) as X; rewrite Ef in X; exact X).
  assert (Ln' : List.length new' = List.length tas) by (unfold new', tas; rewrite !map_length, combine_length, seq_length, Nat.min_id; exact Ln).
  assert (Nx : forall i b, nth_error new i = Some b -> exists t m, nth_error ts i = Some t /\ b = LTable (fst t) (fst (fill_cells ids m [] (snd t) (nth i contents [])))).
  { intros i b Eb. apply (fill_tables_at ids ts (w_next w) contents i b). rewrite Ef. exact Eb. }
  assert (Hl : forall i t x, nth_error ts i = Some t -> In x (nth i r []) -> exists b, x = as_block b /\ nested_block (as_block b) /\ in_cells [t] b).
  { intros i t x Ei Hx. destruct (R1 i x Hx) as (t' & b & Et & Ib & -> & Ic). rewrite Ei in Et. injection Et as <-. exists b. split; [reflexivity|]. split; [apply H; exact Ib|exact Ic]. }
  assert (Td : forall t, In t ts -> tidy [t]).
  { intros t It. destruct Ht as (T1 & _ & T3). split; [|split].
    - constructor; [|constructor]. rewrite Forall_forall in T1. apply T1. apply (in_map (fun t : new_table => tab_box (fst t))). exact It.
    - constructor; constructor.
    - intros u [<-|[]]. apply T3. exact It. }
  assert (Txt : forall i t x, nth_error ts i = Some t -> In x (concat (nth i contents [])) -> exists a b, x = BText a b).
  { intros i t x Ei Hx. rewrite (Con i t Ei) in Hx. apply in_concat in Hx. destruct Hx as (c & Hc & Hx). unfold assign_cells in Hc. apply in_map_iff in Hc. destruct Hc as (q & <- & _). destruct (rect_bool q); [|destruct Hx].
    apply in_flat_map in Hx. destruct Hx as (y & Hy & Hx). destruct (Hl i t y Ei Hy) as (b & -> & _). unfold assign_cell in Hx. cbn [as_block blk_bbox] in Hx. destruct (contains q _ _).
    - destruct (blk_bool _); [destruct Hx as [<-|[]]; do 2 eexists; reflexivity|destruct Hx].
    - destruct (negb _); [destruct Hx|]. cbv zeta in Hx. destruct (blk_bool _); [destruct Hx as [<-|[]]|destruct Hx]. destruct (text_block_lines (map (line_clip q) (b_lines b))) as (rr & ->). eauto. }
  set (rest := filter blk_bool (k ++ number_tables 0 tas)).
  assert (Er : rest = filter blk_bool k ++ number_tables 0 tas).
  { unfold rest. rewrite filter_app. f_equal. apply filter_all. intros b Hb. destruct Ht as (T1 & _). rewrite <- Em in T1. clear - Hb T1. revert Hb. generalize 0%nat. induction tas as [|x q IH]; intros n Hb; [destruct Hb|].
    inversion T1; subst. cbn [number_tables] in Hb. destruct Hb as [<-|Hb]; [apply GeomProof.proper_truthy; assumption|eapply IH; eauto]. }
  assert (Po : Permutation (flat_map (back new') (sort_fblocks (map of_block rest))) (flat_map (back new') (map of_block (filter blk_bool k)) ++ new')).
  { rewrite <- (Permutation_flat_map (back new') (sort_fblocks_perm (map of_block rest))). rewrite Er, map_app, flat_map_app.
    pose proof (number_back new' tas [] Ln') as Nb. cbn [app List.length] in Nb. rewrite Nb. reflexivity. }
  cbn [app]. split; [|split; [|split]].
  - rewrite (text_perm _ _ Po). unfold text_of at 1. rewrite flat_map_app. fold (text_of new') (text_of (flat_map (back new') (map of_block (filter blk_bool k)))).
    destruct (kept_text k ids new') as [Kt _].
    { intros x Hx. destruct (R2 x Hx) as (b & Ib & ->). exists b. split; [reflexivity|]. intros l Hl'. destruct (H b Ib) as ((_ & Nb) & _). apply (proj1 (proj1 (Nb l Hl'))). }
    rewrite Kt. assert (Pn : Permutation (text_of new') (text_of new)) by (apply (shapes_indexed (fun j b => table_shapes w (new_boxes ts) (ls_all ss) j b)); intros j b; apply table_shapes_text).
    rewrite Pn. assert (Pr : Permutation (text_of new) (AssignSpec.block_glyphs (concat r))).
    { assert (G : forall (n2 : list lblock) r2, List.length n2 = List.length r2 -> (forall i b, nth_error n2 i = Some b -> Permutation (block_text b) (AssignSpec.block_glyphs (nth i r2 []))) -> Permutation (text_of n2) (AssignSpec.block_glyphs (concat r2))).
      { clear. induction n2 as [|b n2 IH]; intros [|y r2] L H; try discriminate L; [constructor|]. unfold text_of, AssignSpec.block_glyphs in *. cbn [flat_map concat]. rewrite flat_map_app. apply Permutation_app; [apply (H 0%nat b eq_refl)|].
        apply IH; [injection L as L; exact L|]. intros i x Ex. apply (H (S i) x Ex). }
      apply G; [congruence|]. intros i b Eb. destruct (Nx i b Eb) as (t & m & Ei & ->).
      change (Permutation (block_text (LTable (mkTab rect0 [] true) (fst (fill_cells ids m [] (snd t) (nth i contents []))))) (AssignSpec.block_glyphs (nth i r []))).
      rewrite cells_text.
      - rewrite (Con i t Ei). apply (contents_ok t (nth i r [])); [apply Td; eapply nth_error_In; exact Ei|]. intros x Hx. apply (Hl i t x Ei Hx).
      - rewrite (Con i t Ei). unfold assign_cells. rewrite !map_length. reflexivity.
      - intros c x Hc Hx. apply (Txt i t x Ei). apply in_concat. exists c. auto. }
    rewrite Pr. rewrite Permutation_app_comm. unfold AssignSpec.block_glyphs in *. rewrite <- flat_map_app, P. unfold text_of. clear. induction bs as [|b bs IH]; [constructor|]. cbn [map flat_map as_block blk_lines block_text]. apply Permutation_app_head. exact IH.
  - intros bb cs c g Ho Hc Hg. apply (Permutation_in _ Po) in Ho. apply in_app_or in Ho. destruct Ho as [Ho|Ho].
    { exfalso. apply in_flat_map in Ho. destruct Ho as (y & Hy & Ho). apply in_map_iff in Hy. destruct Hy as (x & <- & Hx). apply filter_In in Hx. destruct (R2 x (proj1 Hx)) as (b & _ & ->).
      destruct (text_block_lines (b_lines b)) as (rr & Etb). rewrite Etb in Ho. cbn [of_block back] in Ho. destruct Ho as [Ho|[]]. discriminate Ho. }
    unfold new' in Ho. apply in_map_iff in Ho. destruct Ho as ((j & b0) & Eb & Hb). cbn [fst snd] in Eb.
    assert (In0 : In b0 new) by (apply in_combine_r in Hb; exact Hb). apply In_nth_error in In0. destruct In0 as (i & Ei0). destruct (Nx i b0 Ei0) as (t & m & Ei & ->).
    assert (Hc0 : exists c0, In c0 (fst (fill_cells ids m [] (snd t) (nth i contents []))) /\ lc_info c = lc_info c0 /\ In g (text_of (snd c0))).
    { unfold table_shapes in Eb. destruct (filter _ (ls_all ss)) as [|q mine].
      - injection Eb as <- <-. exists c. auto.
      - injection Eb as <- <-. apply in_map_iff in Hc. destruct Hc as (c0 & <- & Hc0). exists c0. destruct (cell_shapes_text w (q :: mine) c0) as [X1 X2]. split; [exact Hc0|]. split; [exact X2|].
        eapply Permutation_in; [exact X1|exact Hg]. }
    destruct Hc0 as (c0 & Hc0 & Ei1 & Hg0). rewrite Ei1. apply In_nth_error in Hc0. destruct Hc0 as (n & En). destruct (fill_cells_at _ _ _ _ _ _ En) as (m2 & H1 & _ & H3).
    rewrite H3, back_text in Hg0.
    + rewrite (Con i t Ei) in Hg0. destruct (contents_ok t (nth i r [])) as [_ Cv]; [apply Td; eapply nth_error_In; exact Ei|intros x Hx; apply (Hl i t x Ei Hx)|]. eapply Cv; [exact H1|exact Hg0].
    + intros x Hx. apply (Txt i t x Ei). apply in_concat. exists (nth n (nth i contents []) []). split; [|exact Hx]. apply nth_In.
      destruct (Nat.lt_ge_cases n (List.length (nth i contents []))) as [Lt|Lt]; [exact Lt|]. exfalso. rewrite nth_overflow in Hx by exact Lt. destruct Hx.
  - intros x. cbn [ls_all]. unfold sort_key. rewrite PySort.py_sort_In, filter_In. destruct (ShapeModel.shape_target _ _); split; intros (A & B); split; auto; discriminate.
  - intros j t Ej. assert (Lj : (j < List.length new)%nat) by (rewrite Ln; apply nth_error_Some; congruence).
    destruct (nth_error new j) as [b0|] eqn:Ej0; [|apply nth_error_None in Ej0; lia]. destruct (Nx j b0 Ej0) as (t' & m & Et & ->). rewrite Ej in Et. injection Et as <-.
    set (cs0 := fst (fill_cells ids m [] (snd t) (nth j contents []))) in *.
    assert (Ic0 : map (fun c : lcell => lc_info c) cs0 = snd t).
    { apply nth_ext with (d := None) (d' := None); [rewrite map_length; apply fill_cells_length|]. intros n Hn. rewrite map_length in Hn.
      destruct (nth_error cs0 n) as [c|] eqn:En; [|apply nth_error_None in En; lia]. destruct (fill_cells_at _ _ _ _ _ _ En) as (m2 & H1 & _ & _).
      rewrite (nth_error_nth (snd t) n None H1). rewrite (nth_error_nth (map (fun c : lcell => lc_info c) cs0) n None (map_nth_error (fun c : lcell => lc_info c) n cs0 En)). reflexivity. }
    assert (Is0 : forall c, In c cs0 -> lc_shapes c = no_shapes).
    { intros c Ic. apply In_nth_error in Ic. destruct Ic as (n & En). destruct (fill_cells_at _ _ _ _ _ _ En) as (m2 & _ & H2 & _). exact H2. }
    set (mine := filter (fun k0 => match ShapeModel.shape_target (new_boxes ts) (shape_at w k0) with Some i => Nat.eqb i j | None => false end) (ls_all ss)).
    assert (Im : forall x, In x mine <-> In x (ls_all ss) /\ ShapeModel.shape_target (new_boxes ts) (shape_at w x) = Some j).
    { intros x. unfold mine. rewrite filter_In. destruct (ShapeModel.shape_target _ _) as [i|]; [|split; intros (A & B); discriminate B]. rewrite Nat.eqb_eq. split; intros (A & B); split; congruence. }
    assert (In' : In (table_shapes w (new_boxes ts) (ls_all ss) j (LTable (fst t) cs0)) new').
    { unfold new'. apply in_map_iff. exists (j, LTable (fst t) cs0). split; [reflexivity|]. apply nth_error_In with j. clear - Ej0 Lj. revert Ej0 Lj. generalize (LTable (fst t) cs0). intros b.
      assert (G : forall (l : list lblock) k n, nth_error l n = Some b -> nth_error (combine (seq k (List.length l)) l) n = Some ((k + n)%nat, b)).
      { induction l as [|x l IH]; intros k [|n] E; try discriminate E; cbn [List.length seq combine nth_error] in *; [injection E as ->; rewrite Nat.add_0_r; reflexivity|]. rewrite (IH (S k) n E). do 2 f_equal. lia. }
      intros E _. rewrite (G new 0%nat j E). reflexivity. }
    assert (Out : forall b, In b new' -> In b (flat_map (back new') (sort_fblocks (map of_block rest)))).
    { intros b Hb. apply (Permutation_in _ (Permutation_sym Po)). apply in_or_app. right. exact Hb. }
    apply Out in In'. unfold table_shapes in In'. fold mine in In'. destruct mine as [|q mine'] eqn:Em2.
    + exists cs0. split; [exact In'|]. split; [exact Ic0|]. intros c x Ic. rewrite (Is0 c Ic). split; [intros []|]. intros (A & B & _). destruct (proj2 (Im x) (conj A B)).
    + exists (map (cell_shapes w (q :: mine')) cs0). split; [exact In'|]. split.
      { rewrite map_map. rewrite <- Ic0. apply map_ext. intros c. apply cell_shapes_text. }
      intros c x Ic. apply in_map_iff in Ic. destruct Ic as (c0 & <- & Ic). unfold cell_shapes. destruct (rect_bool (info_box (lc_info c0))) eqn:Rb.
      * unfold lc_shapes, lc_info in *. cbn [fst snd categorise ls_all]. rewrite filter_In, Im, andb_true_iff, Rb. tauto.
      * rewrite Rb, (Is0 c0 Ic). split; [intros []|]. intros (_ & _ & A & _). discriminate A.
Qed.
