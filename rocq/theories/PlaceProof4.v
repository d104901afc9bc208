(** Where the paragraphs are set. *)
From Verif Require Import GeomProof AssignSpec AssignProof PySort.
From Verif Require Import TreeProof LayoutModel WholeModel.
From Verif Require Import ParaSpec ParaProof ParaProps SpacingSpec SpacingProof SpacingProps.
From Verif Require Import PlaceSpec WholeProof WholeProof2 WholeProof4 WholeProof7 PlaceProof PlaceProof2 PlaceProof3.
From Verif Require Import CleanModel.
From Coq Require Import Lia Lqa Permutation Sorting.Sorted.
Notation length := List.length.
Open Scope Q_scope.

(** Stacked lines of a paragraph. *)
Definition stack (ls : list line) : Prop := ls <> [] /\ (forall l, In l ls -> flat_line l) /\ StronglySorted beneath ls.
Lemma stack_dir ls : stack ls -> ParaModel.block_dir ls = LEFT_RIGHT.
Proof.
  intros (_ & H & _). unfold ParaModel.block_dir. assert (E : existsb (fun l => dir_eqb (ln_dir l) IGNORE) ls = false).
  { destruct (existsb _ ls) eqn:E; [|reflexivity]. apply existsb_exists in E. destruct E as (l & Hl & E). rewrite (proj2 (H l Hl)) in E. discriminate E. }
  rewrite E. destruct ls as [|l t]; [reflexivity|]. destruct (forallb _ t); [apply (H l); left; reflexivity|reflexivity].
Qed.
Lemma stack_boxes ls : stack ls -> forall l, In l ls -> box (ln_bbox l).
Proof. intros (_ & H & _) l Hl. destruct (H l Hl) as ((P & D & _) & _). split; assumption. Qed.

(** The spacing of text blocks, block by block. *)
Inductive set_as (order : list nat -> list nat) (pm : params) (area : rect) : list tblock -> list vspace -> list sblock -> Prop :=
| sa_nil : set_as order pm area [] [] []
| sa_cons u v p br us vs ss : parse_horizontal order (b_bbox u) area (text_thresholds pm) (b_lines u) fresh_para = Some p -> set_as order pm area us vs ss ->
    set_as order pm area (u :: us) (v :: vs) (ST (mkSText (b_bbox u) p (v_before v) (v_after v) (v_line v) (b_lines u) br) :: ss).
Lemma spaced_as order pm area us ss : space_layout order pm area (map LText us) = Some ss ->
  exists vs, parse_spacing area (map vblock_of (map LText us)) = Some vs /\ set_as order pm area us vs ss.
Proof.
  intros E. unfold space_layout, space_all in E. destruct (parse_spacing area (map vblock_of (map LText us))) as [vs|] eqn:Ev; [|discriminate E]. cbn [obind] in E. exists vs. split; [reflexivity|].
  apply loop_length in Ev. rewrite Nat.add_0_r, !map_length in Ev.
  assert (Lh : length (final_heights (map vblock_of (map LText us))) = length us) by (unfold final_heights; rewrite map_length, combine_length, seq_length, !map_length; lia).
  revert Lh E. generalize (final_heights (map vblock_of (map LText us))) as hs. revert vs ss Ev. induction us as [|u us IH]; intros vs ss Ev hs Lh E.
  - destruct vs; [|discriminate Ev]. injection E as <-. constructor.
  - destruct vs as [|v vs]; [discriminate Ev|]. destruct hs as [|h hs]; [discriminate Lh|]. cbn [map combine all_some] in E. cbn [fst snd] in E.
    destruct (space_block order pm (LText u) area v h) as [s|] eqn:Es; [|discriminate E]. cbn [obind] in E.
    match type of E with option_map _ ?x = _ => destruct x as [rest|] eqn:Er end; [|discriminate E]. injection E as <-.
    cbn [space_block] in Es. destruct (parse_horizontal order (b_bbox u) area (text_thresholds pm) (b_lines u) fresh_para) as [p|] eqn:Ep; [|discriminate Es]. cbn [obind] in Es.
    destruct (line_breaks _ _ _ _ _) as [br|]; [|discriminate Es]. injection Es as <-. constructor; [exact Ep|]. apply (IH vs rest ltac:(cbn [length] in Ev; lia) hs ltac:(cbn [length] in Lh; lia) Er).
Qed.

(** Down the page. *)
Lemma one_row ls : stack ls -> settable true (VText (hull ls) ls).
Proof.
  intros S. pose proof S as (N & F & B). cbn [settable]. rewrite (stack_dir ls S). split; [reflexivity|]. exists (length ls). split; [apply rows_counted; assumption|].
  destruct ls as [|l [|m t]]; [congruence| |left; cbn [length]; lia]. right. exists l, []. split; [reflexivity|].
  destruct (union_first rect0 (ln_bbox l) eq_refl (stack_boxes [l] S l (or_introl eq_refl))) as (_ & E1 & _ & E3). unfold hull, extent. cbn [fold_left]. lra.
Qed.
Lemma texts_horizontal ts : (forall t, In t ts -> stack (b_lines t)) -> orientation (map vblock_of (map LText (map para_block ts))) = true.
Proof.
  intros H. unfold orientation. assert (D : forall e, In e (map (fun b => mkElem 0 (v_box b) (v_dir b)) (map vblock_of (map LText (map para_block ts)))) -> e_dir e = LEFT_RIGHT).
  { intros e He. rewrite !map_map in He. apply in_map_iff in He. destruct He as (t & <- & Ht). cbn [e_dir v_dir vblock_of para_block b_lines]. apply stack_dir, H, Ht. }
  unfold coll_dir. destruct (map _ _) as [|e l]; [reflexivity|]. destruct (forallb _ _); [|reflexivity]. rewrite (D e (or_introl eq_refl)). reflexivity.
Qed.
Lemma set_written order pm area ts : forall y vs ss, (forall t, In t ts -> stack (b_lines t)) -> set_as order pm area (map para_block ts) vs ss ->
  written false y (map vblock_of (map LText (map para_block ts))) vs (row_ends y (flat_map block_par ss) (map (fun t => length (b_lines t)) ts)).
Proof.
  induction ts as [|t ts IH]; intros y vs ss H S; cbn [map] in S |- *; inversion S as [|u v p br us vs' ss' Ep S']; subst; [constructor|].
  cbn [flat_map block_par app row_ends text_docx st_bbox st_para st_before st_after st_spacing st_lines st_breaks make_paragraph wp_before wp_line wp_after vblock_of para_block b_bbox b_lines].
  fold (written_space (v_before v)) (written_space (v_after v)). destruct (H t (or_introl eq_refl)) as (N & F & B). apply wr_text; [apply rows_counted; assumption|].
  apply IH; [intros x Hx; apply H; right; exact Hx|exact S'].
Qed.
Lemma roundings_budget ts : forall e vs, length vs = length ts -> (forall t, In t ts -> stack (b_lines t)) -> budget e (map vblock_of (map LText (map para_block ts))) vs (roundings e (map (fun t => length (b_lines t)) ts)).
Proof.
  induction ts as [|t ts IH]; intros e [|v vs] Lv H; try discriminate Lv; [constructor|]. cbn [map roundings vblock_of para_block b_lines b_bbox]. destruct (H t (or_introl eq_refl)) as (N & F & B).
  apply bu_text; [apply rows_counted; assumption|]. apply IH; [injection Lv as Lv; exact Lv|]. intros x Hx. apply H. right. exact Hx.
Qed.
Lemma set_spaces order pm area us vs ss : set_as order pm area us vs ss -> length vs = length us.
Proof. induction 1 as [|u v p br us vs ss E S IH]; [reflexivity|]. cbn [length]. rewrite IH. reflexivity. Qed.
Lemma set_length order pm area us vs ss : set_as order pm area us vs ss -> length (flat_map block_par ss) = length us.
Proof. induction 1 as [|u v p br us vs ss E S IH]; [reflexivity|]. cbn [flat_map block_par app length]. rewrite IH. reflexivity. Qed.
Lemma ends_length y ws ns : length ws = length ns -> length (row_ends y ws ns) = length ns.
Proof. revert y ns. induction ws as [|w ws IH]; intros y [|n ns] L; try discriminate L; [reflexivity|]. cbn [row_ends length] in *. rewrite IH by lia. reflexivity. Qed.
Lemma roundings_length e ns : length (roundings e ns) = length ns.
Proof. revert e. induction ns as [|n ns IH]; intros e; [reflexivity|]. cbn [roundings length]. rewrite IH. reflexivity. Qed.
Lemma set_down order pm area ts ss : (forall t, In t ts -> stack (b_lines t)) -> space_layout order pm area (map LText (map para_block ts)) = Some ss ->
  length (flat_map block_par ss) = length ts /\
  forall k t, nth_error ts k = Some t -> exists e drift, nth_error (row_ends (ry0 area) (flat_map block_par ss) (map (fun t => length (b_lines t)) ts)) k = Some e /\
    nth_error (roundings 0 (map (fun t => length (b_lines t)) ts)) k = Some drift /\ Qabs (e - ry1 (hull (b_lines t))) <= drift.
Proof.
  intros H E. destruct (spaced_as order pm area (map para_block ts) ss E) as (vs & Ev & Sa). pose proof (set_length _ _ _ _ _ _ Sa) as L. rewrite map_length in L. split; [exact L|].
  intros k t Hk. assert (Lk : (k < length ts)%nat) by (apply nth_error_Some; congruence).
  destruct (nth_error (row_ends (ry0 area) (flat_map block_par ss) (map (fun t => length (b_lines t)) ts)) k) as [e|] eqn:Ee; [|apply nth_error_None in Ee; rewrite ends_length in Ee by (rewrite map_length; exact L); rewrite map_length in Ee; lia].
  destruct (nth_error (roundings 0 (map (fun t => length (b_lines t)) ts)) k) as [d|] eqn:Ed; [|apply nth_error_None in Ed; rewrite roundings_length, map_length in Ed; lia].
  exists e, d. split; [reflexivity|]. split; [reflexivity|].
  pose proof (texts_horizontal ts H) as Or. set (bs := map vblock_of (map LText (map para_block ts))) in *.
  assert (St : forall b, In b bs -> settable (orientation bs) b).
  { intros b Hb. rewrite Or. unfold bs in Hb. rewrite !map_map in Hb. apply in_map_iff in Hb. destruct Hb as (x & <- & Hx). exact (one_row (b_lines x) (H x Hx)). }
  assert (Fit : tables_fit (orientation bs) area false (lo (orientation bs) area) bs) by (apply text_fits; intros b Hb; unfold bs in Hb; rewrite !map_map in Hb; apply in_map_iff in Hb; destruct Hb as (x & <- & Hx); do 2 eexists; reflexivity).
  destruct (proj2 (C63_laid_out area bs vs Ev) St) as (ys & Fl).
  assert (Hb : nth_error bs k = Some (VText (hull (b_lines t)) (b_lines t))) by (unfold bs; rewrite !map_map, nth_error_map, Hk; reflexivity).
  pose proof (set_written order pm area ts (ry0 area) vs ss H Sa) as W. fold bs in W. pose proof (roundings_budget ts 0 vs (eq_trans (set_spaces _ _ _ _ _ _ Sa) (map_length _ _)) H) as Bu. fold bs in Bu.
  assert (W' : written false (lo (orientation bs) area) bs vs (row_ends (ry0 area) (flat_map block_par ss) (map (fun t => length (b_lines t)) ts))) by (rewrite Or; exact W).
  pose proof (C63_written_drift area bs vs ys _ _ Ev St Fit Fl W' Bu k _ e d Hb Ee Ed) as Dr. rewrite Or in Dr. cbn [v_end v_box hi] in Dr. exact Dr.
Qed.

(** Across the page. *)
Lemma first_space h bb container th ls rows p0 : let p := horizontal_spacing h bb container th ls rows p0 in
  pa_first p = pa_first p0 \/ pa_align p = A_LEFT /\ pa_first p = nth 0 (map (row_first h) rows) 0 - nth 1 (map (row_first h) rows) 0 /\ (2 <= length rows)%nat.
Proof.
  cbv zeta. unfold horizontal_spacing. destruct (internal_alignment h th rows) as [ia f] eqn:Ei. destruct (external_alignment h bb container (th_center th)) as [[e lt] rt].
  destruct f as [f|].
  - unfold internal_alignment in Ei. destruct (existsb _ rows); [discriminate Ei|]. destruct (Nat.ltb_spec (length rows) 2) as [L|L]; [discriminate Ei|]. cbv zeta in Ei.
    destruct (_ && _); [destruct (3 <=? length rows)%nat; discriminate Ei|].
    destruct (qle (spread (if (3 <=? length rows)%nat then tl (map (row_first h) rows) else map (row_first h) rows)) (th_left th)).
    + injection Ei as <- <-. right. split; [reflexivity|]. split; [reflexivity|exact L].
    + destruct (qle _ (th_right th)); [discriminate Ei|]. destruct (qle _ (th_center th)); discriminate Ei.
  - left. destruct ia; try reflexivity. destruct e; reflexivity.
Qed.
Lemma set_across order pm area ls p before after lsp bs : (forall l, Permutation l (order l)) -> stack ls ->
  (forall l, In l ls -> rx0 area <= rx0 (ln_bbox l) /\ rx1 (ln_bbox l) <= rx1 area) ->
  parse_horizontal order (hull ls) area (text_thresholds pm) ls fresh_para = Some p ->
  across_place (p_center_aligned pm) (rx0 area) (rx1 area) ls (make_paragraph (hull ls) p before after lsp ls bs).
Proof.
  intros Ho S In' E. pose proof S as (N & F & B). destruct (hull_sides ls N (stack_boxes ls S)) as (Bx & Lm & Rm & _).
  pose proof (stack_dir ls S) as Dr.
  assert (SL : 0 <= side_left true (hull ls) area) by (destruct Lm as ((l & Hl & K) & _); destruct (In' l Hl); unfold side_left; lra).
  assert (SR : 0 <= side_right true (hull ls) area) by (destruct Rm as ((l & Hl & K) & _); destruct (In' l Hl); unfold side_right; lra).
  destruct (C26_decided order (hull ls) area (text_thresholds pm) ls fresh_para Ho) as (p' & E' & D). rewrite E in E'. injection E' as <-.
  pose proof (C26_spaces _ _ _ _ _ _ _ E) as Sp. cbv zeta in Sp. rewrite Dr in Sp. change (is_horizontal LEFT_RIGHT) with true in Sp.
  destruct Sp as (S1 & S2 & _ & _ & _ & _ & S7 & S8 & S9 & S10). specialize (S1 SL). specialize (S2 SR). apply Qabs_le in S1, S2.
  pose proof (rows_alone order ls Ho F B) as Hg.
  assert (Wa : match pa_align p with A_LEFT => A_LEFT | A_RIGHT => A_RIGHT | A_CENTER => A_CENTER | _ => A_JUSTIFY end = pa_align p) by (destruct D as [<-|[<-|[<-|[<-|[]]]]]; reflexivity).
  unfold across_place, word_first_line, word_other_lines. cbn [make_paragraph wp_align wp_left wp_first wp_right]. rewrite Wa.
  assert (Fs : pa_first p = 0 \/ pa_align p = A_LEFT /\ exists a b t, ls = a :: b :: t /\ pa_first p == rx0 (ln_bbox a) - rx0 (ln_bbox b)).
  { unfold parse_horizontal in E. match type of E with match ?G with _ => _ end = _ => replace G with (Some (map (fun l => [l]) ls)) in E by (symmetry; exact Hg) end.
    rewrite Dr in E. injection E as E. pose proof (first_space true (hull ls) area (text_thresholds pm) ls (map (fun l => [l]) ls) fresh_para) as Q. cbv zeta in Q. change (is_horizontal LEFT_RIGHT) with true in E. rewrite E in Q.
    destruct Q as [Q|(Q1 & Q2 & Q3)]; [left; exact Q|]. right. split; [exact Q1|]. rewrite map_length in Q3. destruct ls as [|a [|b t]]; cbn [length] in Q3; try lia. exists a, b, t. split; [reflexivity|]. rewrite Q2. cbn [map nth row_first lstart startp]. reflexivity. }
  unfold side_left, side_right in S1, S2. split; [|split; [|split]].
  - intros A. exists (rx0 (hull ls)). split; [exact Lm|]. assert (X : pa_left p = pa_left_total p) by (destruct A as [A|[A|[]]]; [apply S7; symmetry; exact A|apply S10; symmetry; exact A]). rewrite X. apply Qabs_le. lra.
  - intros A. exists (rx1 (hull ls)). split; [exact Rm|]. assert (X : pa_right p = pa_right_total p) by (destruct A as [A|[A|[]]]; [apply S8; symmetry; exact A|apply S10; symmetry; exact A]). rewrite X. apply Qabs_le. lra.
  - intros A. assert (F0 : pa_first p = 0) by (destruct Fs as [Fs|(Fs & _)]; [exact Fs|congruence]). split; [rewrite F0, (S9 A); lra|].
    intros l El. assert (NL : ~ left_aligned (is_horizontal (ParaModel.block_dir ls)) (text_thresholds pm) (map (fun l => [l]) ls)) by (rewrite El; intros (_ & K & _); cbn in K; lia).
    pose proof (C50_sides order (hull ls) area (text_thresholds pm) ls _ before after lsp bs p Ho Hg NL E) as K. cbv zeta in K. destruct K as (_ & _ & _ & _ & _ & K).
    cbn [make_paragraph wp_align] in K. rewrite Wa in K. specialize (K A). rewrite map_length, El in K. specialize (K ltac:(cbn; lia)). rewrite <- El, Dr in K. change (is_horizontal LEFT_RIGHT) with true in K. cbn [text_thresholds th_center] in K.
    unfold side_left, side_right in K. apply Qabs_Qlt_condition in K.
    assert (H0 : rx0 (hull ls) == rx0 (ln_bbox l)) by (destruct Lm as ((x & Hx & Q) & _); rewrite El in Hx; destruct Hx as [<-|[]]; exact Q).
    assert (H1 : rx1 (hull ls) == rx1 (ln_bbox l)) by (destruct Rm as ((x & Hx & Q) & _); rewrite El in Hx; destruct Hx as [<-|[]]; exact Q).
    apply Qabs_Qlt_condition. setoid_replace ((rx0 (ln_bbox l) + rx1 (ln_bbox l)) / 2 - (rx0 area + rx1 area) / 2) with ((rx0 (ln_bbox l) + rx1 (ln_bbox l) - rx0 area - rx1 area) * (1 # 2)) by field. split; lra.
  - destruct Fs as [F0|(A & a & b & t & El & Q)]; [left; rewrite F0; lra|]. right. exists a, b, t. split; [exact El|]. split; [exact A|]. rewrite <- Q. lra.
Qed.
