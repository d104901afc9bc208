(** A table and the paragraphs around it are set where they were. *)
From Verif Require Import GeomProof AssignSpec AssignProof PySort.
From Verif Require Import TreeProof TreeProof3 LayoutModel WholeModel.
From Verif Require Import ParaSpec ParaProof ParaProps SpacingSpec SpacingProof SpacingProps.
From Verif Require Import PlaceSpec WholeProof WholeProof2 WholeProof4 WholeProof7 PlaceProof PlaceProof2 PlaceProof3 PlaceProof4 PlaceProps FillProof.
From Verif Require DocxModel.
From Verif Require Import TabSpec SetSpec SetProof GridSpec CleanModel.
From Coq Require Import Lia Lqa Permutation Sorting.Sorted.
Notation length := List.length.
Notation num := SpacingSpec.num.
Notation total := SpacingSpec.total.
Open Scope Q_scope.

Lemma total_gaps (f : nat -> Q) n : forall s, total (map (fun i => f (S i) - f i) (seq s n)) == f (s + n)%nat - f s.
Proof.
  induction n as [|n IH]; intros s; cbn [seq map]; [rewrite Nat.add_0_r; change (total []) with 0; ring|]. rewrite total_cons, IH. replace (s + S n)%nat with (S s + n)%nat by lia. ring.
Qed.
Lemma frame_total g : total (map fst (tab_rows (frame_table g))) == round1 (gy g (g_rows g)) - round1 (gy g 0).
Proof. unfold frame_table. cbn [tab_rows]. rewrite map_map. cbn [fst]. rewrite (total_gaps (fun i => round1 (gy g i)) (g_rows g) 0). reflexivity. Qed.
Lemma mix_horizontal A tb cs B : (forall t, In t (A ++ B) -> stack (b_lines t)) -> orientation (map vblock_of (map LText (map para_block A) ++ LTable tb cs :: map LText (map para_block B))) = true.
Proof.
  intros H. unfold orientation. assert (D : forall e, In e (map (fun b => mkElem 0 (v_box b) (v_dir b)) (map vblock_of (map LText (map para_block A) ++ LTable tb cs :: map LText (map para_block B)))) -> e_dir e = LEFT_RIGHT).
  { intros e He. rewrite map_map in He. apply in_map_iff in He. destruct He as (b & <- & Hb). cbn [e_dir].
    assert (K : forall l, (forall t, In t l -> stack (b_lines t)) -> In b (map LText (map para_block l)) -> v_dir (vblock_of b) = LEFT_RIGHT).
    { intros l Hl X. rewrite map_map in X. apply in_map_iff in X. destruct X as (t & <- & Ht). cbn [v_dir vblock_of para_block b_lines]. apply stack_dir, Hl, Ht. }
    apply in_app_or in Hb. destruct Hb as [Hb|[<-|Hb]]; [apply (K A); [intros t Ht; apply H, in_or_app; left; exact Ht|exact Hb]|reflexivity|apply (K B); [intros t Ht; apply H, in_or_app; right; exact Ht|exact Hb]]. }
  unfold coll_dir. destruct (map _ _) as [|e l]; [reflexivity|]. destruct (forallb _ _); [|reflexivity]. rewrite (D e (or_introl eq_refl)). reflexivity.
Qed.
Lemma set_at_eq w ds : forall y y' ns k z, y == y' -> nth_error (set_at w y ds ns) k = Some z -> exists z', nth_error (set_at w y' ds ns) k = Some z' /\ z' == z.
Proof.
  induction ds as [|d ds IH]; intros y y' ns k z Ey E; [destruct k; discriminate E|]. destruct d as [p fs|[| | | |] fs|a hs t]; cbn [set_at] in E |- *; try (destruct k; discriminate E).
  - destruct ns as [|n ns]; [destruct k; discriminate E|]. cbv zeta in E |- *. destruct k as [|k]; cbn [nth_error] in E |- *.
    + injection E as <-. eexists. split; [reflexivity|]. rewrite Ey. reflexivity.
    + apply (IH (y + wp_before p + num n * wp_line p + wp_after p)); [rewrite Ey; reflexivity|exact E].
  - apply (IH (y + h)); [rewrite Ey; reflexivity|exact E].
  - cbv zeta in E |- *. destruct k as [|k]; cbn [nth_error] in E |- *.
    + injection E as <-. eexists. split; [reflexivity|]. rewrite Ey. reflexivity.
    + apply (IH (y + w / 2 + points (rows_height hs 0 (length hs)) + w / 2)); [rewrite Ey; reflexivity|exact E].
Qed.
Lemma set_at_length w ds : forall y y' ns, length (set_at w y ds ns) = length (set_at w y' ds ns).
Proof.
  induction ds as [|d ds IH]; intros y y' ns; [reflexivity|]. destruct d as [p fs|[| | | |] fs|a hs t]; cbn [set_at]; try reflexivity.
  - destruct ns as [|n ns]; [reflexivity|]. cbv zeta. cbn [length]. rewrite (IH _ (y' + wp_before p + num n * wp_line p + wp_after p)). reflexivity.
  - apply IH.
  - cbv zeta. cbn [length]. f_equal. apply IH.
Qed.
Lemma down_eq g A B y y' body hs : y == y' -> set_down_page g A B y body hs -> set_down_page g A B y' body hs.
Proof.
  intros Ey (L & Ab & (z & Hz & Tz) & Be). unfold set_down_page. cbv zeta. split; [rewrite (set_at_length _ _ y' y); exact L|]. split; [|split].
  - intros k t Ht. destruct (Ab k t Ht) as (x & b & e & H1 & H2 & H3 & H4). destruct (set_at_eq _ _ _ y' _ _ _ Ey H1) as (x' & H1' & Ex). exists x', b, e. split; [exact H1'|]. split; [exact H2|]. split; [exact H3|]. rewrite Ex. exact H4.
  - destruct (set_at_eq _ _ _ y' _ _ _ Ey Hz) as (z' & Hz' & Ez). exists z'. split; [exact Hz'|]. intros i Hi Hl. rewrite Ez. apply Tz; assumption.
  - intros k t Ht. destruct (Be k t Ht) as (x & b & e & H1 & H2 & H3 & H4). destruct (set_at_eq _ _ _ y' _ _ _ Ey H1) as (x' & H1' & Ex). exists x', b, e. split; [exact H1'|]. split; [exact H2|]. split; [exact H3|]. rewrite Ex. exact H4.
Qed.
Lemma dummy_near q : 0 <= q -> DocxModel.dummy_height q <= q /\ q < DocxModel.dummy_height q + (1 # 10) /\ exists z, DocxModel.dummy_height q == inject_Z z / 10.
Proof.
  intros H. unfold DocxModel.dummy_height. assert (H0 : 0 <= 10 * q) by lra. assert (E : qtrunc (10 * q) = Qfloor (10 * q)) by (unfold qtrunc; destruct (qlt (10 * q) 0) eqn:X; [|reflexivity]; exfalso; unfold qlt in X; apply negb_true_iff in X; rewrite (proj2 (Qle_bool_iff _ _) H0) in X; discriminate X).
  rewrite E. pose proof (Qfloor_le (10 * q)) as L. pose proof (Qlt_floor (10 * q)) as U. rewrite inject_Z_plus in U. change (inject_Z 1) with 1 in U.
  set (f := inject_Z (Qfloor (10 * q))) in *. assert (Ef : f / 10 == f * (1 # 10)) by (unfold Qdiv; reflexivity). split; [rewrite Ef; lra|]. split; [rewrite Ef; lra|]. exists (Qfloor (10 * q)). reflexivity.
Qed.
Lemma text_made order pm area us vs ss : set_as order pm area us vs ss -> Forall2 (fun s w => block_docx s = Some (MText w)) ss (flat_map block_par ss).
Proof. induction 1 as [|u v p br us vs ss E S IH]; [constructor|]. cbn [flat_map block_par app]. constructor; [reflexivity|exact IH]. Qed.
Lemma text_pars ws : flat_map paragraphs_of (map (fun w => DText w []) ws) = ws.
Proof. induction ws as [|w ws IH]; [reflexivity|]. cbn [map flat_map paragraphs_of app]. rewrite IH. reflexivity. Qed.
Lemma nth_mid {X} (a : list X) x b k : nth_error (a ++ x :: b) (length a + S k) = nth_error b k.
Proof. rewrite nth_error_app2 by lia. replace (length a + S k - length a)%nat with (S k) by lia. reflexivity. Qed.
Lemma nth_here {X} (a : list X) x b : nth_error (a ++ x :: b) (length a) = Some x.
Proof. rewrite nth_error_app2, Nat.sub_diag by lia. reflexivity. Qed.

Notation rows_of_ := (map (fun t => length (b_lines t))).
Theorem page_set order pm area g cs A B tpl pg secs body ind hs t : (1 <= g_rows g)%nat -> (forall t, In t (A ++ B) -> stack (b_lines t)) ->
  space_layout order pm area (map LText (map para_block A) ++ LTable (frame_table g) cs :: map LText (map para_block B)) = Some (sp_blocks pg) -> WholeModel.top_border cs = Some (g_width g) ->
  ry0 area + g_width g / 2 <= ry0 (frame_box g) -> ry1 (frame_box g) <= ry1 area -> (forall t, In t A -> ry1 (hull (b_lines t)) + g_width g / 2 <= ry0 (frame_box g)) ->
  document_docx tpl [pg] = Some (secs, body) -> sp_floats pg = [] -> In (DTable ind hs t) body -> row_heights g (match B with [] => true | _ => false end) hs ->
  set_down_page g A B (ry0 area) body hs /\
  forall k t w, nth_error (A ++ B) k = Some t -> nth_error (flat_map paragraphs_of body) k = Some w ->
    exists p before after lsp br, parse_horizontal order (hull (b_lines t)) area (text_thresholds pm) (b_lines t) fresh_para = Some p /\ w = make_paragraph (hull (b_lines t)) p before after lsp (b_lines t) br.
Proof.
  intros Gr St Es Tb F1 F2 F3 D Fl It Rh. destruct (spaced_mix order pm area _ _ Es) as (vs & Ev & Mx). destruct (mix_split order pm area _ _ _ _ _ _ Mx) as (va & v & vb & sa & srows & sb & -> & Eb & Sa & Sb).
  pose proof (text_made _ _ _ _ _ _ Sa) as Ma. pose proof (text_made _ _ _ _ _ _ Sb) as Mb. set (wa := flat_map block_par sa) in *. set (wb := flat_map block_par sb) in *.
  pose proof (set_length _ _ _ _ _ _ Sa) as Lwa. pose proof (set_length _ _ _ _ _ _ Sb) as Lwb. rewrite map_length in Lwa, Lwb. fold wa in Lwa. fold wb in Lwb.
  pose proof (set_spaces _ _ _ _ _ _ Sa) as Lva. pose proof (set_spaces _ _ _ _ _ _ Sb) as Lvb. rewrite map_length in Lva, Lvb.
  destruct (body_form tpl pg secs body wa (mkTP (v_before v) (rx0 (frame_table g) - rx0 area) (tab_lattice (frame_table g))) srows wb sa sb D Fl Eb Ma Mb) as (hs' & t' & Ebody). cbn [tp_before tp_left] in Ebody.
  assert (Hhs : hs' = hs).
  { rewrite Ebody in It. assert (NT : forall l, ~ In (DTable ind hs t) (map (fun w => DText w []) l)) by (intros l X; apply in_map_iff in X; destruct X as (x & X & _); discriminate X).
    apply in_app_or in It. destruct It as [X|It]; [destruct (NT _ X)|]. apply in_app_or in It. destruct It as [X|[X|It]]; [destruct (qle (7 # 10) (v_before v)); [destruct X as [X|[]]; discriminate X|destruct X]|injection X as _ -> _; reflexivity|].
    apply in_app_or in It. destruct It as [X|X]; [destruct (NT _ X)|]. destruct wb; [destruct X as [X|[]]; discriminate X|destruct X]. }
  subst hs'. set (w := g_width g) in *. set (fh := map fst (tab_rows (frame_table g))). pose proof (frame_total g) as Tf. fold fh in Tf.
  assert (Fb0 : ry0 (frame_box g) = round1 (gy g 0)) by reflexivity. assert (Fb1 : ry1 (frame_box g) = round1 (gy g (g_rows g))) by reflexivity.
  assert (StA : forall t, In t A -> stack (b_lines t)) by (intros x Hx; apply St, in_or_app; left; exact Hx). assert (StB : forall t, In t B -> stack (b_lines t)) by (intros x Hx; apply St, in_or_app; right; exact Hx).
  pose proof (mix_horizontal A (frame_table g) cs B St) as Or.
  set (bs := map vblock_of (map LText (map para_block A) ++ LTable (frame_table g) cs :: map LText (map para_block B))) in *.
  assert (Ebs : bs = map vblock_of (map LText (map para_block A)) ++ VTable (frame_box g) (Some w) fh :: map vblock_of (map LText (map para_block B))) by (unfold bs; rewrite map_app; cbn [map vblock_of]; rewrite Tb; reflexivity).
  assert (TxA : forall b, In b (map vblock_of (map LText (map para_block A))) -> exists t, In t A /\ b = VText (hull (b_lines t)) (b_lines t)).
  { intros b Hb. rewrite !map_map in Hb. apply in_map_iff in Hb. destruct Hb as (x & <- & Hx). exists x. split; [exact Hx|reflexivity]. }
  assert (TxB : forall b, In b (map vblock_of (map LText (map para_block B))) -> exists t, In t B /\ b = VText (hull (b_lines t)) (b_lines t)).
  { intros b Hb. rewrite !map_map in Hb. apply in_map_iff in Hb. destruct Hb as (x & <- & Hx). exists x. split; [exact Hx|reflexivity]. }
  assert (Stt : forall b, In b bs -> settable true b).
  { intros b Hb. rewrite Ebs in Hb. apply in_app_or in Hb. destruct Hb as [Hb|[<-|Hb]].
    - destruct (TxA b Hb) as (x & Hx & ->). apply one_row, StA, Hx.
    - cbn [settable extent]. rewrite Tf, <- Fb0, <- Fb1. reflexivity.
    - destruct (TxB b Hb) as (x & Hx & ->). apply one_row, StB, Hx. }
  assert (Fit : tables_fit true area false (ry0 area) bs).
  { rewrite Ebs. apply fits_after; [intros b Hb; destruct (TxA b Hb) as (x & _ & ->); do 2 eexists; reflexivity|]. intros ref' R. cbn [tables_fit]. split.
    - cbn [lo hi]. split; [|exact F2]. destruct R as [->|(b & Hb & ->)]; [lra|]. destruct (TxA b Hb) as (x & Hx & ->). cbn [v_outer v_box hi]. specialize (F3 x Hx). lra.
    - apply text_fits. intros b Hb. destruct (TxB b Hb) as (x & _ & ->). do 2 eexists; reflexivity. }
  pose proof (C63_spaces_nonneg area bs _ v Ev ltac:(apply in_elt)) as (Vn & _).
  set (d := if qle (7 # 10) (v_before v) then DocxModel.dummy_height (v_before v) else 0).
  set (ya := past (ry0 area) wa (rows_of_ A)). set (yb := ya + d + w / 2 + total fh + w / 2).
  assert (W : written false (ry0 area) bs (va ++ v :: vb) (row_ends (ry0 area) wa (rows_of_ A) ++ (ya + d + w / 2 + total fh) :: row_ends yb wb (rows_of_ B))).
  { rewrite Ebs. apply (texts_written order pm area); [exact StA|exact Sa|]. fold wa ya. apply wr_table with (d := d).
    - unfold d. destruct (qle (7 # 10) (v_before v)) eqn:Q.
      + left. unfold qle in Q. apply Qle_bool_iff in Q. split; [exact Q|]. apply dummy_near. exact Vn.
      + right. split; [reflexivity|]. split; [|reflexivity]. apply Qnot_le_lt. intros X. apply Qle_bool_iff in X. unfold qle in Q. congruence.
    - fold yb. apply (texts_written_any order pm area); [exact StB|exact Sb]. }
  set (E0 := fold_left (fun e n => e + (num n + 2) / 20) (rows_of_ A) 0).
  assert (Bu : budget 0 bs (va ++ v :: vb) (roundings 0 (rows_of_ A) ++ (E0 + slack v) :: roundings (E0 + slack v) (rows_of_ B))).
  { rewrite Ebs. apply texts_budget; [exact Lva|exact StA|]. fold E0. apply bu_table. apply roundings_budget; [exact Lvb|exact StB]. }
  assert (Dt : E0 + slack v <= table_drift (rows_of_ A)).
  { destruct A as [|a A'] eqn:EA.
    - cbn [map table_drift]. unfold E0. cbn [map fold_left]. unfold slack. destruct (Qeq_bool (v_before v) 0); lra.
    - rewrite <- EA in *. assert (Z : slack v = 0).
      { unfold parse_spacing in Ev. rewrite Ebs in Ev. destruct (after_text _ _ _ _ _ _ _ _ _ _ (fun b Hb => ltac:(destruct (TxA b Hb) as (x & _ & ->); do 2 eexists; reflexivity)) Ev) as (v' & Hv & Zv); [left; rewrite EA; discriminate|].
        rewrite Nat.add_0_r, !map_length, <- Lva, nth_here in Hv. injection Hv as <-. unfold slack. rewrite Zv. reflexivity. }
      rewrite Z. unfold E0. rewrite drift_sum. unfold table_drift. rewrite EA. cbn [map]. lra. }
  destruct (proj2 (C63_laid_out area bs _ Ev)) as (ys & Fy); [intros b Hb; rewrite Or; apply Stt, Hb|].
  pose proof (fun k b z e => C63_written_drift area bs _ ys _ _ Ev ltac:(intros x Hx; rewrite Or; apply Stt, Hx) ltac:(rewrite Or; exact Fit) Fy ltac:(rewrite Or; exact W) Bu k b z e) as Dr. rewrite Or in Dr.
  assert (Lra : length (row_ends (ry0 area) wa (rows_of_ A)) = length A) by (rewrite ends_length; rewrite map_length; [reflexivity|exact Lwa]).
  assert (Lrb : length (row_ends yb wb (rows_of_ B)) = length B) by (rewrite ends_length; rewrite map_length; [reflexivity|exact Lwb]).
  pose proof Rh as (Lh & _).
  (* heights *)
  assert (Ht : forall i, (i <= g_rows g)%nat -> (i < g_rows g)%nat \/ B <> [] -> points (rows_height hs 0 i) == round1 (gy g i) - round1 (gy g 0)).
  { intros i Hi Hl. unfold points. destruct i as [|i]; [change (rows_height hs 0 0) with 0%Z; change (inject_Z 0) with 0; unfold Qdiv; ring|].
    rewrite (heights_above g _ hs Rh 0 (S i) ltac:(lia) ltac:(lia)). cbn [Nat.add]. assert (Ls : loss g (match B with [] => true | _ => false end) 0 (S i) = 0).
    { unfold loss. cbn [Nat.add]. destruct B; [|reflexivity]. destruct Hl as [Hl|X]; [|congruence]. destruct (Nat.eqb_spec (S i) (g_rows g)) as [X|_]; [lia|reflexivity]. }
    rewrite Ls. field. }
  (* the items *)
  set (u := ya + d + w / 2).
  assert (Zs : exists u' yb', u' == u /\ (B <> [] -> yb' == yb) /\ set_at w (ry0 area) body (rows_of_ A ++ rows_of_ B) = row_ends (ry0 area) wa (rows_of_ A) ++ u' :: row_ends yb' wb (rows_of_ B)).
  { rewrite Ebody. rewrite set_texts by (rewrite map_length; exact Lwa). fold ya.
    assert (Tail : forall y, set_at w y (map (fun w => DText w []) wb ++ match wb with [] => [DOther DocxModel.PTrail []] | _ => [] end) (rows_of_ B) = row_ends y wb (rows_of_ B)).
    { intros y. rewrite <- (app_nil_r (rows_of_ B)) at 1. rewrite set_texts by (rewrite map_length; exact Lwb). destruct wb; cbn [set_at]; [rewrite app_nil_r; reflexivity|rewrite app_nil_r; reflexivity]. }
    exists (if qle (7 # 10) (v_before v) then ya + DocxModel.dummy_height (v_before v) + w / 2 else ya + w / 2), ((if qle (7 # 10) (v_before v) then ya + DocxModel.dummy_height (v_before v) + w / 2 else ya + w / 2) + points (rows_height hs 0 (length hs)) + w / 2).
    assert (Eu : (if qle (7 # 10) (v_before v) then ya + DocxModel.dummy_height (v_before v) + w / 2 else ya + w / 2) == u) by (unfold u, d; destruct (qle (7 # 10) (v_before v)); ring).
    split; [exact Eu|]. split.
    - intros NB. rewrite Eu, Lh. rewrite (Ht (g_rows g) (le_n _) (or_intror NB)). unfold yb, u. rewrite Tf. ring.
    - f_equal. destruct (qle (7 # 10) (v_before v)); cbn [app set_at]; cbv zeta; rewrite Tail; reflexivity. }
  destruct Zs as (u' & yb' & Eu & Eyb & Zs). split.
  - unfold set_down_page. cbv zeta. fold w. rewrite Zs. split.
    { rewrite app_length. cbn [length]. rewrite Lra, ends_length; rewrite map_length; [reflexivity|exact Lwb]. }
    split; [|split].
    + intros k x Hx. assert (Lk : (k < length A)%nat) by (apply nth_error_Some; congruence).
      destruct (nth_error (row_ends (ry0 area) wa (rows_of_ A)) k) as [z|] eqn:Ez; [|apply nth_error_None in Ez; rewrite Lra in Ez; lia].
      destruct (nth_error (roundings 0 (rows_of_ A)) k) as [e|] eqn:Ee; [|apply nth_error_None in Ee; rewrite roundings_length, map_length in Ee; lia].
      exists z, (ry1 (hull (b_lines x))), e. split; [rewrite nth_error_app1 by (rewrite Lra; exact Lk); exact Ez|]. split; [reflexivity|]. destruct (StA x (nth_error_In _ _ Hx)) as (N & Fl' & Bn). split; [apply bottom_hull; assumption|].
      apply (Dr k (VText (hull (b_lines x)) (b_lines x))); [rewrite Ebs, nth_error_app1 by (rewrite !map_length; exact Lk); rewrite !nth_error_map, Hx; reflexivity|rewrite nth_error_app1 by (rewrite Lra; exact Lk); exact Ez|rewrite nth_error_app1 by (rewrite roundings_length, map_length; exact Lk); exact Ee].
    + exists u'. split; [rewrite <- Lra; apply nth_here|]. intros i Hi Hl. rewrite (Ht i Hi Hl), Eu.
      assert (K : Qabs (ya + d + w / 2 + total fh - v_end true (VTable (frame_box g) (Some w) fh)) <= E0 + slack v).
      { apply (Dr (length A)); [rewrite Ebs; replace (length A) with (length (map vblock_of (map LText (map para_block A)))) by (rewrite !map_length; reflexivity); apply nth_here|rewrite <- Lra; apply nth_here|].
        replace (length A) with (length (roundings 0 (rows_of_ A))) by (rewrite roundings_length, map_length; reflexivity). apply nth_here. }
      cbn [v_end v_box hi] in K. rewrite Tf, Fb1 in K. fold u in K. apply Qle_trans with (2 := Dt). eapply Qle_trans; [|exact K]. apply Qle_lteq. right. apply Qabs_wd. ring.
    + intros k x Hx. assert (Lk : (k < length B)%nat) by (apply nth_error_Some; congruence). assert (NB : B <> []) by (intros X; rewrite X in Hx; destruct k; discriminate Hx).
      destruct (nth_error (row_ends yb wb (rows_of_ B)) k) as [z|] eqn:Ez; [|apply nth_error_None in Ez; rewrite Lrb in Ez; lia].
      destruct (ends_eq _ _ yb yb' k z ltac:(symmetry; apply Eyb, NB) Ez) as (z' & Ez' & Qz).
      destruct (nth_error (roundings (E0 + slack v) (rows_of_ B)) k) as [e|] eqn:Ee; [|apply nth_error_None in Ee; rewrite roundings_length, map_length in Ee; lia].
      destruct (roundings_le _ _ (table_drift (rows_of_ A)) _ _ Dt Ee) as (e' & Ee' & Le).
      exists z', (ry1 (hull (b_lines x))), e'. split; [rewrite <- Lra, nth_mid; exact Ez'|]. split; [exact Ee'|]. destruct (StB x (nth_error_In _ _ Hx)) as (N & Fl' & Bn). split; [apply bottom_hull; assumption|].
      rewrite Qz. apply Qle_trans with (2 := Le). apply (Dr (length A + S k)%nat (VText (hull (b_lines x)) (b_lines x))).
      * rewrite Ebs. replace (length A) with (length (map vblock_of (map LText (map para_block A)))) by (rewrite !map_length; reflexivity). rewrite nth_mid, !nth_error_map, Hx. reflexivity.
      * rewrite <- Lra, nth_mid. exact Ez.
      * replace (length A) with (length (roundings 0 (rows_of_ A))) by (rewrite roundings_length, map_length; reflexivity). rewrite nth_mid. exact Ee.
  - intros k x w0 Hx Hw. assert (Ep : flat_map paragraphs_of body = wa ++ wb).
    { rewrite Ebody, !flat_map_app, text_pars. cbn [flat_map paragraphs_of app]. rewrite flat_map_app, text_pars. f_equal. destruct (qle (7 # 10) (v_before v)); cbn [flat_map paragraphs_of app]; destruct wb; cbn [flat_map paragraphs_of app]; rewrite ?app_nil_r; reflexivity. }
    rewrite Ep in Hw.
    assert (Sk : forall l vs ss k, set_as order pm area (map para_block l) vs ss -> nth_error l k = Some x -> nth_error (flat_map block_par ss) k = Some w0 ->
      exists p before after lsp br, parse_horizontal order (hull (b_lines x)) area (text_thresholds pm) (b_lines x) fresh_para = Some p /\ w0 = make_paragraph (hull (b_lines x)) p before after lsp (b_lines x) br).
    { clear. induction l as [|y l IH]; intros vs ss k S Hx Hw; [destruct k; discriminate Hx|]. cbn [map] in S. inversion S as [|u v p br us vs' ss' Ep S']; subst. destruct k as [|k]; [|apply (IH vs' ss' k S' Hx Hw)].
      injection Hx as ->. cbn [flat_map block_par app nth_error] in Hw. injection Hw as <-. exists p, (v_before v), (v_after v), (v_line v), br. split; [exact Ep|reflexivity]. }
    destruct (Nat.lt_ge_cases k (length A)) as [Lk|Lk].
    + rewrite nth_error_app1 in Hx by exact Lk. rewrite nth_error_app1 in Hw by (rewrite Lwa; exact Lk). apply (Sk A va sa k Sa Hx Hw).
    + rewrite nth_error_app2 in Hx by exact Lk. rewrite nth_error_app2 in Hw by (rewrite Lwa; exact Lk). rewrite Lwa in Hw. apply (Sk B vb sb (k - length A)%nat Sb Hx Hw).
Qed.
