(** Where a table and the paragraphs around it are set. *)
From Verif Require Import GeomProof AssignSpec AssignProof PySort.
From Verif Require Import TreeProof TreeProof3 LayoutModel WholeModel.
From Verif Require Import ParaSpec ParaProof ParaProps SpacingSpec SpacingProof SpacingProps.
From Verif Require Import PlaceSpec WholeProof WholeProof2 WholeProof4 WholeProof7 PlaceProof PlaceProof2 PlaceProof3 PlaceProof4 PlaceProps.
From Verif Require DocxModel.
From Verif Require Import GridSpec SetSpec CleanModel.
From Coq Require Import Lia Lqa Permutation Sorting.Sorted.
Notation length := List.length.
Notation num := SpacingSpec.num.
Open Scope Q_scope.

(** Spacing of texts and tables. *)
Inductive set_mix (order : list nat -> list nat) (pm : params) (area : rect) : list lblock -> list vspace -> list sblock -> Prop :=
| sm_nil : set_mix order pm area [] [] []
| sm_text u v p br us vs ss : parse_horizontal order (b_bbox u) area (text_thresholds pm) (b_lines u) fresh_para = Some p -> set_mix order pm area us vs ss ->
    set_mix order pm area (LText u :: us) (v :: vs) (ST (mkSText (b_bbox u) p (v_before v) (v_after v) (v_line v) (b_lines u) br) :: ss)
| sm_table tb cs v srows us vs ss : set_mix order pm area us vs ss -> set_mix order pm area (LTable tb cs :: us) (v :: vs) (STable (mkTP (v_before v) (rx0 tb - rx0 area) (tab_lattice tb)) srows :: ss).
Lemma spaced_mix order pm area bs ss : space_layout order pm area bs = Some ss -> exists vs, parse_spacing area (map vblock_of bs) = Some vs /\ set_mix order pm area bs vs ss.
Proof.
  intros E. unfold space_layout, space_all in E. destruct (parse_spacing area (map vblock_of bs)) as [vs|] eqn:Ev; [|discriminate E]. cbn [obind] in E. exists vs. split; [reflexivity|].
  apply loop_length in Ev. rewrite Nat.add_0_r, map_length in Ev.
  assert (Lh : length (final_heights (map vblock_of bs)) = length bs) by (unfold final_heights; rewrite map_length, combine_length, seq_length, !map_length; lia).
  revert Lh E. generalize (final_heights (map vblock_of bs)) as hs. revert vs ss Ev. induction bs as [|b bs IH]; intros vs ss Ev hs Lh E.
  - destruct vs; [|discriminate Ev]. injection E as <-. constructor.
  - destruct vs as [|v vs]; [discriminate Ev|]. destruct hs as [|h hs]; [discriminate Lh|]. cbn [map combine all_some] in E. cbn [fst snd] in E.
    destruct (space_block order pm b area v h) as [s|] eqn:Es; [|discriminate E]. cbn [obind] in E.
    match type of E with option_map _ ?x = _ => destruct x as [rest|] eqn:Er end; [|discriminate E]. injection E as <-.
    assert (R : set_mix order pm area bs vs rest) by (apply (IH vs rest ltac:(cbn [length] in Ev; lia) hs ltac:(cbn [length] in Lh; lia) Er)).
    destruct b as [u|tb cs]; cbn [space_block] in Es.
    + destruct (parse_horizontal order (b_bbox u) area (text_thresholds pm) (b_lines u) fresh_para) as [p|] eqn:Ep; [|discriminate Es]. cbn [obind] in Es.
      destruct (line_breaks _ _ _ _ _) as [br|]; [|discriminate Es]. injection Es as <-. constructor; assumption.
    + match type of Es with option_map _ ?x = _ => destruct x as [cells|] end; [|discriminate Es]. injection Es as <-. constructor. exact R.
Qed.
Lemma mix_texts order pm area us : forall vs ss, set_mix order pm area (map LText us) vs ss -> set_as order pm area us vs ss.
Proof. induction us as [|u us IH]; intros vs ss S; inversion S; subst; constructor; [assumption|apply IH; assumption]. Qed.
Lemma mix_split order pm area A tb cs B : forall vs ss, set_mix order pm area (map LText A ++ LTable tb cs :: map LText B) vs ss ->
  exists va v vb sa srows sb, vs = va ++ v :: vb /\ ss = sa ++ STable (mkTP (v_before v) (rx0 tb - rx0 area) (tab_lattice tb)) srows :: sb /\ set_as order pm area A va sa /\ set_as order pm area B vb sb.
Proof.
  induction A as [|u A IH]; intros vs ss S.
  - cbn [map app] in S. inversion S; subst. exists [], v, vs0, [], srows, ss0. split; [reflexivity|]. split; [reflexivity|]. split; [constructor|apply mix_texts; assumption].
  - cbn [map app] in S. inversion S as [|u' v p br us vs' ss' Ep S'|]; subst. destruct (IH _ _ S') as (va & v0 & vb & sa & srows & sb & -> & -> & Sa & Sb).
    exists (v :: va), v0, vb, (ST (mkSText (b_bbox u) p (v_before v) (v_after v) (v_line v) (b_lines u) br) :: sa), srows, sb. split; [reflexivity|]. split; [reflexivity|]. split; [constructor; assumption|exact Sb].
Qed.

(** No space is made before a table that comes after text. *)
Lemma loop_head h c bs p v ref vs : spacing_loop h c (Some (p, v)) ref bs = Some vs -> exists v' t, vs = v' :: t /\ v_before v' = v_before v.
Proof.
  destruct bs as [|b bs]; intros E; cbn [spacing_loop] in E; [injection E as <-; exists v, []; split; reflexivity|]. cbv zeta in E. destruct (v_border b) as [dw|]; [|discriminate E].
  assert (K : forall o f, option_map (app [f]) o = Some vs -> v_before f = v_before v -> exists v' t, vs = v' :: t /\ v_before v' = v_before v).
  { intros [l|] f X Y; [|discriminate X]. injection X as <-. exists f, l. split; [reflexivity|exact Y]. }
  destruct b as [bb ls|bb|bb w hs]; [destruct (line_spacing bb ls _) as [(before, l)|]; [|discriminate E]| |destruct (v_is_text p)]; apply (K _ _ E); reflexivity.
Qed.
Lemma after_text h c texts : forall prev ref vs bb w hs rest, (forall b, In b texts -> exists bb ls, b = VText bb ls) ->
  spacing_loop h c prev ref (texts ++ VTable bb w hs :: rest) = Some vs -> texts <> [] \/ (exists p v, prev = Some (p, v) /\ v_is_text p = true) ->
  exists v, nth_error vs (length texts + match prev with Some _ => 1 | None => 0 end) = Some v /\ v_before v = 0.
Proof.
  induction texts as [|b texts IH]; intros prev ref vs bb w hs rest T E Hp.
  - destruct Hp as [X|(p & v & -> & Tp)]; [congruence|]. cbn [app spacing_loop] in E. cbv zeta in E. destruct (v_border (VTable bb w hs)) as [dw|]; [|discriminate E]. rewrite Tp in E.
    match type of E with option_map _ ?x = _ => destruct x as [l|] eqn:El end; [|discriminate E]. injection E as <-. destruct (loop_head _ _ _ _ _ _ _ El) as (v' & t & -> & Z). exists v'. split; [reflexivity|exact Z].
  - destruct (T b (or_introl eq_refl)) as (b0 & ls & ->). cbn [app spacing_loop] in E. cbv zeta in E. cbn [v_border] in E. destruct (line_spacing b0 ls _) as [(before, l)|]; [|discriminate E].
    match type of E with option_map _ ?x = _ => destruct x as [vs'|] eqn:El end; [|discriminate E]. apply (f_equal (fun o => match o with Some z => z | None => [] end)) in E. cbv beta iota in E. cbn [option_map] in E.
    destruct (IH _ _ _ _ _ _ _ (fun x Hx => T x (or_intror Hx)) El) as (v & Ev & Z); [right; do 2 eexists; split; reflexivity|]. exists v. split; [|exact Z]. rewrite <- E.
    destruct prev as [(p, v0)|]; cbn [app length Nat.add]; [cbn [nth_error]; rewrite Nat.add_1_r in Ev |- *; exact Ev|]. rewrite Nat.add_1_r in Ev. rewrite Nat.add_0_r. exact Ev.
Qed.

(** Down the page, with the numbers written. *)
Fixpoint past (y : Q) (ws : list wordp) (ns : list nat) : Q :=
  match ws, ns with w :: ws', n :: ns' => past (y + wp_before w + num n * wp_line w + wp_after w) ws' ns' | _, _ => y end.
Notation rows_of_ := (map (fun t => length (b_lines t))).
Lemma texts_written order pm area ts rest vr zr : forall y vs ss, (forall t, In t ts -> stack (b_lines t)) -> set_as order pm area (map para_block ts) vs ss ->
  written false (past y (flat_map block_par ss) (rows_of_ ts)) rest vr zr ->
  written false y (map vblock_of (map LText (map para_block ts)) ++ rest) (vs ++ vr) (row_ends y (flat_map block_par ss) (rows_of_ ts) ++ zr).
Proof.
  induction ts as [|t ts IH]; intros y vs ss H S W; cbn [map] in S |- *; inversion S as [|u v p br us vs' ss' Ep S']; subst; [exact W|].
  cbn [flat_map block_par app row_ends past map text_docx st_bbox st_para st_before st_after st_spacing st_lines st_breaks make_paragraph wp_before wp_line wp_after vblock_of para_block b_bbox b_lines] in W |- *.
  fold (written_space (v_before v)) (written_space (v_after v)) in W |- *. destruct (H t (or_introl eq_refl)) as (N & F & B). apply wr_text; [apply rows_counted; assumption|].
  apply IH; [intros x Hx; apply H; right; exact Hx|exact S'|exact W].
Qed.
Lemma texts_written_any order pm area ts p y vs ss : (forall t, In t ts -> stack (b_lines t)) -> set_as order pm area (map para_block ts) vs ss ->
  written p y (map vblock_of (map LText (map para_block ts))) vs (row_ends y (flat_map block_par ss) (rows_of_ ts)).
Proof.
  intros H S. destruct ts as [|t ts]; cbn [map] in S |- *; inversion S as [|u v p0 br us vs' ss' Ep S']; subst; [constructor|].
  cbn [flat_map block_par app row_ends map text_docx st_bbox st_para st_before st_after st_spacing st_lines st_breaks make_paragraph wp_before wp_line wp_after vblock_of para_block b_bbox b_lines].
  fold (written_space (v_before v)) (written_space (v_after v)). destruct (H t (or_introl eq_refl)) as (N & F & B). apply wr_text; [apply rows_counted; assumption|].
  apply set_written with (order := order) (pm := pm) (area := area); [intros x Hx; apply H; right; exact Hx|exact S'].
Qed.
Lemma texts_budget ts rest vr er : forall e vs, length vs = length ts -> (forall t, In t ts -> stack (b_lines t)) ->
  budget (fold_left (fun e n => e + (num n + 2) / 20) (rows_of_ ts) e) rest vr er ->
  budget e (map vblock_of (map LText (map para_block ts)) ++ rest) (vs ++ vr) (roundings e (rows_of_ ts) ++ er).
Proof.
  induction ts as [|t ts IH]; intros e [|v vs] Lv H B; try discriminate Lv; [exact B|]. cbn [map roundings fold_left app vblock_of para_block b_lines b_bbox] in B |- *. destruct (H t (or_introl eq_refl)) as (N & F & Bn).
  apply bu_text; [apply rows_counted; assumption|]. apply IH; [injection Lv as Lv; exact Lv|intros x Hx; apply H; right; exact Hx|exact B].
Qed.
Lemma drift_sum ns : forall e, fold_left (fun e n => e + (num n + 2) / 20) ns e == e + fold_right (fun n q => (num n + 2) / 20 + q) 0 ns.
Proof. induction ns as [|n ns IH]; intros e; cbn [fold_left fold_right]; [ring|]. rewrite IH. ring. Qed.
Lemma roundings_le ns : forall e e' k d, e <= e' -> nth_error (roundings e ns) k = Some d -> exists d', nth_error (roundings e' ns) k = Some d' /\ d <= d'.
Proof.
  induction ns as [|n ns IH]; intros e e' k d L E; [destruct k; discriminate E|]. cbn [roundings] in E |- *. destruct k as [|k]; cbn [nth_error] in E |- *.
  - injection E as <-. eexists. split; [reflexivity|]. lra.
  - apply (IH (e + (num n + 2) / 20)); [lra|exact E].
Qed.
Lemma fits_after h c A rest : forall ref, (forall b, In b A -> exists bb ls, b = VText bb ls) ->
  (forall ref', ref' = ref \/ (exists b, In b A /\ ref' = v_outer h b) -> tables_fit h c false ref' rest) -> tables_fit h c false ref (A ++ rest).
Proof.
  induction A as [|b A IH]; intros ref T H; [apply H; left; reflexivity|]. destruct (T b (or_introl eq_refl)) as (bb & ls & Eb). cbn [app tables_fit]. rewrite Eb at 1 2. cbn [v_is_text negb]. split; [exact I|].
  apply IH; [intros x Hx; apply T; right; exact Hx|]. intros ref' [->|(x & Hx & ->)]; apply H; right; [exists b; split; [left; reflexivity|reflexivity]|exists x; split; [right; exact Hx|reflexivity]].
Qed.

(** The body of a page with one table. *)
Lemma number_app_ a : forall k b, number k (a ++ b) = number k a ++ number (k + length a) b.
Proof. induction a as [|m a IH]; intros k b; [cbn [app number length]; rewrite Nat.add_0_r; reflexivity|]. cbn [app number length]. rewrite IH. do 3 f_equal. lia. Qed.
Definition paras (k n : nat) : list DocxModel.item := map (fun i => DocxModel.Para (DocxModel.PBlock i) []) (seq k n).
Lemma flow_texts ws : forall k rest pre b, DocxModel.make_flow DocxModel.InDoc (number k (map MText ws) ++ rest) pre b =
  DocxModel.make_flow DocxModel.InDoc rest (match ws with [] => pre | _ => false end) (b ++ paras k (length ws)).
Proof.
  induction ws as [|w ws IH]; intros k rest pre b; [cbn [map number app]; unfold paras; cbn; rewrite app_nil_r; reflexivity|].
  cbn [map number app DocxModel.make_flow made_type]. unfold DocxModel.is_text_image at 1. cbn [DocxModel.b_type DocxModel.b_id]. rewrite IH. unfold DocxModel.add_paragraph, paras. cbn [length seq map]. rewrite <- app_assoc. destruct ws; reflexivity.
Qed.
Lemma flow_end ws k pre b : DocxModel.make_flow DocxModel.InDoc (number k (map MText ws)) pre b = b ++ paras k (length ws).
Proof. rewrite <- (app_nil_r (number k (map MText ws))), flow_texts. reflexivity. Qed.
Lemma expand_paras all ws : forall k, (forall i, nth_error (map MText ws) i <> None -> nth_error all (k + i) = nth_error (map MText ws) i) -> map (expand all) (paras k (length ws)) = map (fun w => DText w []) ws.
Proof.
  induction ws as [|w ws IH]; intros k H; [reflexivity|]. unfold paras. cbn [length seq map expand]. f_equal.
  - specialize (H 0%nat). rewrite Nat.add_0_r in H. rewrite H by discriminate. reflexivity.
  - apply (IH (S k)). intros i Hi. specialize (H (S i) Hi). replace (S k + i)%nat with (k + S i)%nat by lia. exact H.
Qed.
Lemma anchor_none b : DocxModel.anchor_last [] b = b.
Proof.
  unfold DocxModel.anchor_last. assert (E : forall l, DocxModel.anchor_first [] l = l) by (induction l as [|[k fs|id] l IH]; cbn; [reflexivity|rewrite app_nil_r; reflexivity|rewrite IH; reflexivity]).
  rewrite E. apply rev_involutive.
Qed.
Lemma body_form tpl pg secs body wa before srows wb sa sb : document_docx tpl [pg] = Some (secs, body) -> sp_floats pg = [] -> sp_blocks pg = sa ++ STable before srows :: sb ->
  Forall2 (fun s w => block_docx s = Some (MText w)) sa wa -> Forall2 (fun s w => block_docx s = Some (MText w)) sb wb ->
  exists hs t, body = map (fun w => DText w []) wa ++ (if qle (7 # 10) (tp_before before) then [DOther (DocxModel.PDummy (DocxModel.dummy_height (tp_before before))) []] else []) ++
    DTable (20 * tp_left before) hs t :: map (fun w => DText w []) wb ++ match wb with [] => [DOther DocxModel.PTrail []] | _ => [] end.
Proof.
  intros D Fl Eb Fa Fb. destruct (document_inv tpl [pg] _ D) as (mss & F & Eo). injection Eo as _ ->. inversion F as [|? ms ? mss' Fm F']; subst. inversion F'; subst. clear F F' D.
  rewrite Eb in Fm. apply Forall2_app_inv_l in Fm. destruct Fm as (ma & mr & Ma & Mr & ->). inversion Mr as [|? mt ? mb Et Mb]; subst.
  assert (U : forall l ws m, Forall2 (fun s w => block_docx s = Some (MText w)) l ws -> Forall2 (fun b m => block_docx b = Some m) l m -> m = map MText ws).
  { clear. induction l as [|s l IH]; intros ws m A B; inversion A; subst; inversion B; subst; [reflexivity|]. cbn [map]. f_equal; [congruence|]. apply IH; assumption. }
  rewrite (U _ _ _ Fa Ma) in *. rewrite (U _ _ _ Fb Mb) in *. rewrite table_docx in Et. match type of Et with obind ?x _ = _ => destruct x as [src|] end; [|discriminate Et]. cbn [obind] in Et. destruct (word_table dnewp dnoruns src) as [[hs t]|]; [|discriminate Et]. injection Et as <-. cbn [fst snd] in *.
  exists hs, t. cbn [combine number_pages concat]. rewrite app_nil_r. unfold DocxModel.make_pages. cbn [fold_left]. unfold DocxModel.page_make_docx. cbn [DocxModel.d_body DocxModel.no_paragraphs existsb negb DocxModel.p_blocks DocxModel.p_floats]. rewrite Fl.
  unfold DocxModel.blocks_make_docx. rewrite number_app_, map_length. cbn [number made_type made_before Nat.add].
  rewrite flow_texts. cbn [DocxModel.make_flow]. unfold DocxModel.is_text_image at 1, DocxModel.is_table at 1. cbn [DocxModel.b_type].
  replace (match wa with [] => false | _ => false end) with false by (destruct wa; reflexivity). cbn [app].
  set (b1 := DocxModel.make_table DocxModel.InDoc (DocxModel.mkBlock (length wa) DocxModel.LATTICE_TABLE (tp_before before)) false (paras 0 (length wa))).
  rewrite flow_end.
  assert (Tr : forall body0, DocxModel.add_trailing (rev (number 0 (map MText wa) ++ DocxModel.mkBlock (length wa) DocxModel.LATTICE_TABLE (tp_before before) :: number (S (length wa)) (map MText wb))) body0 =
    body0 ++ match wb with [] => [DocxModel.Para DocxModel.PTrail []] | _ => [] end).
  { intros body0. rewrite rev_app_distr. cbn [rev]. destruct wb as [|w wb] using rev_ind.
    - cbn [map number rev app DocxModel.add_trailing]. unfold DocxModel.is_float at 1, DocxModel.is_table at 1. cbn [DocxModel.b_type negb]. destruct wa as [|w wa] using rev_ind; [reflexivity|].
      rewrite map_app, number_app_, rev_app_distr. cbn [map number rev app DocxModel.add_trailing]. reflexivity.
    - rewrite map_app, number_app_, rev_app_distr. cbn [map number rev app DocxModel.add_trailing]. unfold DocxModel.is_float at 1, DocxModel.is_table at 1. cbn [DocxModel.b_type negb made_type]. destruct wb; cbn [app]; rewrite app_nil_r; reflexivity. }
  rewrite Tr. unfold DocxModel.add_floats. rewrite anchor_none.
  assert (Np : DocxModel.no_paragraphs ((b1 ++ paras (S (length wa)) (length wb)) ++ match wb with [] => [DocxModel.Para DocxModel.PTrail []] | _ => [] end) = false).
  { unfold DocxModel.no_paragraphs. rewrite !existsb_app. destruct wb as [|w wb]; [cbn [existsb DocxModel.is_para orb]; rewrite !orb_true_r; reflexivity|]. replace (existsb DocxModel.is_para (paras (S (length wa)) (length (w :: wb)))) with true by reflexivity. rewrite orb_true_r. reflexivity. }
  rewrite Np. unfold b1, DocxModel.make_table. cbn [DocxModel.b_before DocxModel.b_id]. rewrite orb_false_r. set (all := map MText wa ++ MTable before hs t :: map MText wb).
  assert (N1 : forall i, nth_error (map MText wa) i <> None -> nth_error all (0 + i) = nth_error (map MText wa) i).
  { intros i Hi. unfold all. apply nth_error_Some in Hi. rewrite nth_error_app1 by exact Hi. reflexivity. }
  assert (N2 : forall i, nth_error (map MText wb) i <> None -> nth_error all (S (length wa) + i) = nth_error (map MText wb) i).
  { intros i Hi. unfold all. rewrite nth_error_app2 by (rewrite map_length; lia). rewrite map_length. replace (S (length wa) + i - length wa)%nat with (S i) by lia. reflexivity. }
  assert (N3 : nth_error all (length wa) = Some (MTable before hs t)) by (unfold all; rewrite nth_error_app2, map_length, Nat.sub_diag by (rewrite map_length; lia); reflexivity).
  rewrite !map_app, (expand_paras all wb _ N2).
  assert (E1 : map (expand all) (DocxModel.add_table DocxModel.InDoc (length wa) (if qle (7 # 10) (tp_before before) then DocxModel.add_paragraph (DocxModel.PDummy (DocxModel.dummy_height (tp_before before))) (paras 0 (length wa)) else paras 0 (length wa))) =
    map (fun w => DText w []) wa ++ (if qle (7 # 10) (tp_before before) then [DOther (DocxModel.PDummy (DocxModel.dummy_height (tp_before before))) []] else []) ++ [DTable (20 * tp_left before) hs t]).
  { unfold DocxModel.add_table, DocxModel.add_paragraph. destruct (qle (7 # 10) (tp_before before)); rewrite !map_app, (expand_paras all wa 0 N1); cbn [map expand]; rewrite N3, <- ?app_assoc; reflexivity. }
  rewrite E1, <- !app_assoc. cbn [app]. destruct wb; reflexivity.
Qed.
(** The items in order. *)
Lemma set_texts w rest ns' ws : forall y ns, length ws = length ns -> set_at w y (map (fun w => DText w []) ws ++ rest) (ns ++ ns') = row_ends y ws ns ++ set_at w (past y ws ns) rest ns'.
Proof. induction ws as [|p ws IH]; intros y [|n ns] L; try discriminate L; [reflexivity|]. cbn [map app set_at row_ends past]. cbv zeta. f_equal. apply IH. injection L as L. exact L. Qed.
