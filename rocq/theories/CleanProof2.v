(** The clean-up as a whole: contents conserved. *)
From Verif Require Import GeomProof AssignSpec AssignProof InterProof GraphProof TextProof TextProps PySort CleanSpec CleanProof.
From Coq Require Import Lia Lqa Permutation.
Open Scope Q_scope.

Lemma normal_bool l : normal_line l -> ln_bool l = true.
Proof. intros (P & _). apply proper_truthy. exact P. Qed.
Lemma normal_filter ls : (forall l, In l ls -> normal_line l) -> filter ln_bool ls = ls.
Proof. intros H. apply filter_all. intros l Hl. apply normal_bool, H, Hl. Qed.
Lemma joined_truthy thr merging g : (forall b l, In b g -> b_bool b = true -> In l (b_lines b) -> normal_line l) ->
  b_bool (joined_block thr merging g) = match lines_in (filter b_bool g) with [] => false | _ => true end /\
  b_lines (joined_block thr merging g) = lines_join thr merging (lines_in (filter b_bool g)).
Proof.
  intros N. unfold joined_block, lines_in. cbn [b_lines]. set (ls := flat_map b_lines (filter b_bool g)).
  assert (Nl : forall l, In l ls -> normal_line l).
  { intros l Hl. apply in_flat_map in Hl. destruct Hl as (b & Hb & Hl). apply filter_In in Hb. eapply N; [apply Hb|apply Hb|exact Hl]. }
  rewrite normal_filter by exact Nl. split; [|reflexivity]. destruct ls as [|l t] eqn:E; [reflexivity|]. unfold b_bool. cbn [b_bbox].
  apply proper_truthy. apply grow_all. apply fold_boxes0; [reflexivity|]. intros y Hy. destruct (Nl y Hy) as (P & D & _). split; assumption.
Qed.
Definition spans_in (bs : list tblock) : list span := flat_map ln_spans (lines_in bs).
Lemma spans_in_app a b : spans_in (a ++ b) = spans_in a ++ spans_in b.
Proof. unfold spans_in, lines_in. rewrite !flat_map_app. reflexivity. Qed.
Lemma lines_in_app a b : lines_in (a ++ b) = lines_in a ++ lines_in b.
Proof. apply flat_map_app. Qed.
Lemma joined_all thr merging gs : 1 # 1000000 < thr -> (forall b l, In b (concat gs) -> b_bool b = true -> In l (b_lines b) -> normal_line l) ->
  exists lost, let out := filter b_bool (map (joined_block thr merging) gs) in
    Permutation (spans_in (filter b_bool (concat gs))) (spans_in out ++ flat_map ln_spans lost) /\
    (forall l, In l lost -> In l (lines_in (filter b_bool (concat gs))) /\ overlaps_another thr (lines_in (filter b_bool (concat gs))) l).
Proof.
  intros T. induction gs as [|g t IH]; intros N.
  - exists []. cbn. split; [constructor|intros l []].
  - destruct IH as (lost & P & H). { intros b l Hb. apply N. cbn [concat]. apply in_or_app. right. exact Hb. }
    assert (Ng : forall b l, In b g -> b_bool b = true -> In l (b_lines b) -> normal_line l) by (intros b l Hb; apply N; cbn [concat]; apply in_or_app; left; exact Hb).
    destruct (joined_truthy thr merging g Ng) as [J1 J2]. cbv zeta in *. set (L := lines_in (filter b_bool g)) in *.
    assert (NL : forall l, In l L -> normal_line l).
    { intros l Hl. apply in_flat_map in Hl. destruct Hl as (b & Hb & Hl). apply filter_In in Hb. eapply Ng; [apply Hb|apply Hb|exact Hl]. }
    destruct (join_lost thr merging L T NL) as (lost1 & P1 & H1). exists (lost1 ++ lost). cbn [concat map]. rewrite filter_app. split.
    + rewrite spans_in_app, flat_map_app. set (rest := filter b_bool (map (joined_block thr merging) t)) in *.
      assert (E : spans_in (filter b_bool (joined_block thr merging g :: map (joined_block thr merging) t)) = flat_map ln_spans (lines_join thr merging L) ++ spans_in rest).
      { cbn [filter]. fold rest. rewrite J1. destruct L as [|l0 L0] eqn:EL.
        - reflexivity.
        - change (joined_block thr merging g :: rest) with ([joined_block thr merging g] ++ rest). rewrite spans_in_app. f_equal.
          unfold spans_in, lines_in. cbn [flat_map]. rewrite app_nil_r, J2. reflexivity. }
      rewrite E. eapply Permutation_trans; [apply Permutation_app; [exact P1|exact P]|]. rewrite <- !app_assoc. apply Permutation_app_head.
      rewrite !app_assoc. apply Permutation_app_tail. apply Permutation_app_comm.
    + intros l Hl. rewrite lines_in_app. fold L. apply in_app_or in Hl. destruct Hl as [Hl|Hl].
      * destruct (H1 l Hl) as [A B]. split; [apply in_or_app; left; exact A|apply overlaps_more; exact B].
      * destruct (H l Hl) as [A B]. split; [apply in_or_app; right; exact A|]. eapply overlaps_perm; [apply Permutation_app_comm|]. apply overlaps_more. exact B.
Qed.
Lemma join_spec order thr merging r : (forall l, Permutation l (order l)) -> 1 # 1000000 < thr ->
  (forall b l, In b r -> b_bool b = true -> In l (b_lines b) -> normal_line l) ->
  exists out lost, join_horizontally order thr merging r = Some out /\
    Permutation (spans_in (filter b_bool r)) (spans_in out ++ flat_map ln_spans lost) /\
    (forall l, In l lost -> In l (lines_in (filter b_bool r)) /\ overlaps_another thr (lines_in (filter b_bool r)) l) /\
    (forall b, In b out -> b_img b = false /\ b_bool b = true).
Proof.
  intros Ho T N. unfold join_horizontally. destruct (group_perm side_by_side order Ho r) as (gs & -> & P). eexists.
  destruct (joined_all thr merging gs T) as (lost & Q1 & Q2).
  { intros b l Hb. apply N. eapply Permutation_in; [exact P|exact Hb]. }
  exists lost. cbv zeta in *. split; [reflexivity|].
  assert (PF : Permutation (filter b_bool (concat gs)) (filter b_bool r)) by (apply filter_perm; exact P).
  assert (PL : Permutation (lines_in (filter b_bool (concat gs))) (lines_in (filter b_bool r))) by (apply Permutation_flat_map; exact PF).
  split; [|split].
  - eapply Permutation_trans; [|exact Q1]. apply Permutation_sym. unfold spans_in. apply Permutation_flat_map. exact PL.
  - intros l Hl. destruct (Q2 l Hl) as [A B]. split; [eapply Permutation_in; [exact PL|exact A]|]. eapply overlaps_perm; [exact PL|exact B].
  - intros b Hb. apply filter_In in Hb. destruct Hb as [Hb Tb]. apply in_map_iff in Hb. destruct Hb as (g & <- & _). split; [reflexivity|exact Tb].
Qed.
(** Blank removal. *)
Lemma strip_lines b : b_lines (block_strip b) = map stripped (b_lines b).
Proof. unfold block_strip, stripped. cbn [b_lines]. rewrite map_map. reflexivity. Qed.
Lemma fold_lines_normal (ls : list line) : (forall l, In l ls -> box (ln_bbox l)) -> forall r, box r -> box (fold_left (fun r l => runion r (ln_bbox l)) ls r).
Proof.
  induction ls as [|l t IH]; intros H r B; cbn [fold_left]; [exact B|]. apply IH; [intros x Hx; apply H; right; exact Hx|].
  destruct (H l (or_introl eq_refl)) as (P & D). destruct B as (Pr & Dr). split; [|apply runion_decimal; assumption].
  unfold runion. rewrite (proper_nonempty _ P), (proper_nonempty _ Pr). destruct P, Pr. split; cbn [rx0 rx1 ry0 ry1]; unfold qmin, qmax; qcases; lra.
Qed.
Lemma strip_truthy b : b_bool b = true -> b_lines b <> [] -> (forall l, In l (b_lines b) -> normal_line (stripped l)) -> b_bool (block_strip b) = true.
Proof.
  intros Tb Ne N. unfold block_strip, b_bool. cbn [b_bbox]. destruct (existsb snd (map line_strip (b_lines b))); [|exact Tb].
  rewrite map_map. change (fun x => fst (line_strip x)) with stripped. unfold lines_bbox.
  destruct (b_lines b) as [|l0 t] eqn:E; [congruence|]. cbn [map fold_left].
  assert (B0 : box (ln_bbox (stripped l0))) by (destruct (N l0 (or_introl eq_refl)) as (P & D & _); split; assumption).
  assert (U : runion rect0 (ln_bbox (stripped l0)) = ln_bbox (stripped l0)).
  { unfold runion. destruct B0 as (P & _). rewrite (proper_nonempty _ P). reflexivity. }
  rewrite U. assert (B : box (fold_left (fun r l => runion r (ln_bbox l)) (map stripped t) (ln_bbox (stripped l0)))).
  { apply fold_lines_normal; [|exact B0]. intros l Hl. apply in_map_iff in Hl. destruct Hl as (x & <- & Hx). destruct (N x (or_intror Hx)) as (P & D & _). split; assumption. }
  apply proper_truthy. set (R := fold_left _ _ _) in *. destruct B as (P & D).
  apply (proper_req (rround R)); [apply req_sym, rround_fixed, rround_decimal|]. apply (proper_req R); [apply req_sym, rround_fixed, D|exact P].
Qed.
(** What is seen survives the removal of blanks. *)
Definition seen_spans (ss : list span) : list seen := flat_map seen_of (glyphs ss).
Lemma seen_spans_app a b : seen_spans (a ++ b) = seen_spans a ++ seen_spans b.
Proof. unfold seen_spans, glyphs, styled. rewrite flat_map_app, map_app, flat_map_app. reflexivity. Qed.
Lemma white_unseen (gs : list (glyph * list style)) : (forall g, In g gs -> white_glyph g) -> flat_map seen_of (map fst gs) = [].
Proof.
  induction gs as [|[g st] t IH]; intros H; [reflexivity|]. cbn [map flat_map fst]. rewrite IH by (intros x Hx; apply H; right; exact Hx). rewrite app_nil_r.
  specialize (H _ (or_introl eq_refl)). unfold white_glyph, white_char in H. cbn [fst] in H. destruct g as [c a|k b]; [|destruct H]. cbn [seen_of]. rewrite H. reflexivity.
Qed.
Lemma strip_seen l : seen_spans (ln_spans (stripped l)) = seen_spans (ln_spans l).
Proof.
  unfold stripped, line_strip. destruct (C24_only_white (ln_spans l)) as (pre & suf & E & W & _). destruct (spans_strip (ln_spans l)) as [ss b]. cbn [fst ln_spans] in *.
  unfold seen_spans, glyphs. rewrite E, !map_app, !flat_map_app. rewrite (white_unseen pre), (white_unseen suf); [rewrite app_nil_r; reflexivity| |];
    intros g Hg; apply W; apply in_or_app; auto.
Qed.
Lemma seen_in_spans bs : seen_in bs = seen_spans (spans_in bs).
Proof.
  unfold seen_in, spans_in, lines_in. induction bs as [|b t IH]; [reflexivity|]. cbn [flat_map]. rewrite IH, flat_map_app, seen_spans_app. f_equal.
  unfold block_glyphs. induction (b_lines b) as [|l ls IHl]; [reflexivity|]. cbn [flat_map]. rewrite flat_map_app, seen_spans_app, IHl. reflexivity.
Qed.
Lemma strip_seen_in bs : seen_in (map block_strip bs) = seen_in bs.
Proof.
  unfold seen_in. induction bs as [|b t IH]; [reflexivity|]. cbn [map flat_map]. rewrite IH. f_equal. unfold block_glyphs. rewrite strip_lines.
  induction (b_lines b) as [|l ls IHl]; [reflexivity|]. cbn [map flat_map]. rewrite !flat_map_app, IHl. f_equal. apply strip_seen.
Qed.
(** The blocks to keep. *)
Lemma says_iff b : block_says b = true <-> exists g, In g (block_glyphs b) /\ visible_glyph g.
Proof.
  unfold block_says, block_glyphs. rewrite existsb_exists. split.
  - intros (l & Hl & H). apply existsb_exists in H. destruct H as (s & Hs & H). destruct s as [t|k r]; cbn in H.
    + apply existsb_exists in H. destruct H as (c & Hc & H). exists (GChar c (ts_attrs t)). split; [|cbn; apply negb_true_iff; exact H].
      apply in_flat_map. exists l. split; [exact Hl|]. unfold glyphs, styled. apply in_map_iff. exists (GChar c (ts_attrs t), ts_style t). split; [reflexivity|].
      apply in_flat_map. exists (SText t). split; [exact Hs|]. cbn. apply in_map_iff. exists c. auto.
    + exists (GImage k r). split; [|exact I]. apply in_flat_map. exists l. split; [exact Hl|]. unfold glyphs, styled. apply in_map_iff. exists (GImage k r, []). split; [reflexivity|].
      apply in_flat_map. exists (SImage k r). split; [exact Hs|]. left. reflexivity.
  - intros (g & Hg & V). apply in_flat_map in Hg. destruct Hg as (l & Hl & Hg). exists l. split; [exact Hl|]. apply existsb_exists.
    unfold glyphs, styled in Hg. apply in_map_iff in Hg. destruct Hg as ((g' & st) & <- & Hg). apply in_flat_map in Hg. destruct Hg as (s & Hs & Hg). exists s. split; [exact Hs|].
    destruct s as [t|k r]; cbn in *; [|reflexivity]. apply in_map_iff in Hg. destruct Hg as (c & E & Hc). injection E as <- <-. apply existsb_exists. exists c. cbn in V. rewrite V. auto.
Qed.
Lemma dir_iff b : dir_eqb (block_dir b) IGNORE = false <-> forall l, In l (b_lines b) -> ln_dir l = LEFT_RIGHT \/ ln_dir l = BOTTOM_TOP.
Proof.
  unfold block_dir. destruct (existsb _ (b_lines b)) eqn:E.
  - split; [discriminate|]. intros H. apply existsb_exists in E. destruct E as (l & Hl & E). destruct (H l Hl) as [K|K]; rewrite K in E; discriminate.
  - assert (A : forall l, In l (b_lines b) -> ln_dir l = LEFT_RIGHT \/ ln_dir l = BOTTOM_TOP).
    { intros l Hl. destruct (ln_dir l) eqn:D; auto. exfalso. assert (X : existsb (fun l => dir_eqb (ln_dir l) IGNORE) (b_lines b) = true) by (apply existsb_exists; exists l; rewrite D; auto). congruence. }
    split; [intros _; exact A|]. intros _. destruct (b_lines b) as [|l t]; [reflexivity|]. destruct (forallb _ t); [|reflexivity]. destruct (A l (or_introl eq_refl)) as [-> | ->]; reflexivity.
Qed.
Lemma shown_iff page b : proper page -> proper (b_bbox b) -> shown page b = true <-> to_keep page b.
Proof.
  intros Pp Pb. unfold shown, to_keep. rewrite !andb_true_iff, negb_true_iff, says_iff, dir_iff.
  assert (M : rintersects (b_bbox b) page = true <-> rx0 (b_bbox b) < rx1 page /\ rx0 page < rx1 (b_bbox b) /\ ry0 (b_bbox b) < ry1 page /\ ry0 page < ry1 (b_bbox b)).
  { rewrite (rintersects_shared _ _ Pb Pp), qlt_iff. split.
    - intros A. destruct (Qlt_le_dec (rx0 (b_bbox b)) (rx1 page)); [|exfalso; rewrite (shared_apart (b_bbox b) page) in A by (right; left; assumption); lra].
      destruct (Qlt_le_dec (rx0 page) (rx1 (b_bbox b))); [|exfalso; rewrite (shared_apart (b_bbox b) page) in A by (left; assumption); lra].
      destruct (Qlt_le_dec (ry0 (b_bbox b)) (ry1 page)); [|exfalso; rewrite (shared_apart (b_bbox b) page) in A by (right; right; right; assumption); lra].
      destruct (Qlt_le_dec (ry0 page) (ry1 (b_bbox b))); [|exfalso; rewrite (shared_apart (b_bbox b) page) in A by (right; right; left; assumption); lra]. auto.
    - intros (A1 & A2 & A3 & A4). destruct (Qlt_le_dec 0 (shared (b_bbox b) page)) as [|K]; [assumption|exfalso].
      assert (Z : shared (b_bbox b) page == 0).
      { apply Qle_antisym; [exact K|]. unfold shared. apply Qmult_le_0_compat; unfold qmax; qcases; lra. }
      apply apart_shared in Z; [|assumption|assumption]. unfold apart in Z. destruct Z as [Z|[Z|[Z|Z]]]; lra. }
  rewrite M. tauto.
Qed.
Lemma sort_blocks_perm bs : Permutation bs (sort_blocks bs).
Proof. apply py_sort_perm. Qed.
Lemma shown_kept page bs keep drop : proper page -> (forall b, In b bs -> proper (b_bbox b)) -> Permutation bs (keep ++ drop) ->
  (forall b, In b keep -> to_keep page b) -> (forall b, In b drop -> ~ to_keep page b) ->
  Permutation (filter (fun b => shown page b && b_bool b) bs) keep.
Proof.
  intros Pp Pb P K D. eapply Permutation_trans; [apply filter_perm; exact P|].
  assert (Q : forall b, In b (keep ++ drop) -> proper (b_bbox b)) by (intros b Hb; apply Pb; eapply Permutation_in; [apply Permutation_sym; exact P|exact Hb]).
  rewrite filter_app. rewrite filter_all, filter_none; [rewrite app_nil_r; apply Permutation_refl| |].
  - intros b Hb. destruct (shown page b) eqn:S; [|reflexivity]. exfalso. apply (D b Hb). apply shown_iff; [assumption|apply Q; apply in_or_app; right; exact Hb|exact S].
  - intros b Hb. assert (Pq : proper (b_bbox b)) by (apply Q; apply in_or_app; left; exact Hb). apply andb_true_iff. split; [apply shown_iff; auto|apply proper_truthy; exact Pq].
Qed.
Lemma img_strip b : b_img (block_strip b) = b_img b.
Proof. reflexivity. Qed.
Lemma clean_steps order page gap thr merging bs keep drop :
  (forall l, Permutation l (order l)) -> proper page -> (forall b, In b bs -> proper (b_bbox b)) -> (forall b, In b bs -> b_img b = true -> wrapped_image b) ->
  1 # 1000000 < thr -> Permutation bs (keep ++ drop) -> (forall b, In b keep -> to_keep page b) -> (forall b, In b drop -> ~ to_keep page b) ->
  (forall b l, In b keep -> In l (b_lines b) -> normal_line (stripped l)) ->
  exists sorted gs M out, Permutation (map block_strip keep) sorted /\
    group_by_connectivity order (- gap) (- gap) (map (fun p => ln_bbox (snd p)) (numbered 0 sorted)) = Some gs /\
    M = met (numbered 0 sorted) sorted (concat (filter (fun g => Nat.ltb 1 (List.length g)) gs)) /\
    clean_up order page gap thr merging bs = Some (map image_of (flat_map (item_at sorted) M), out) /\
    join_horizontally order thr merging (clear_all M 0 sorted) = Some out /\
    filter b_bool (clear_all M 0 sorted) = staying M sorted /\
    Permutation sorted (flat_map (item_at sorted) M ++ staying M sorted) /\
    (forall b, In b (flat_map (item_at sorted) M) -> b_img b = true) /\
    (forall c, In c sorted -> b_bool c = true) /\ (forall c l, In c sorted -> In l (b_lines c) -> normal_line l) /\
    (forall c, In c sorted -> exists b, In b keep /\ In b bs /\ c = block_strip b).
Proof.
  intros Ho Pp Pb W T P K D N.
  pose proof (shown_kept page bs keep drop Pp Pb P K D) as PK.
  set (kept := filter (fun b => shown page b && b_bool b) bs) in *.
  set (sorted := sort_blocks (map block_strip kept)).
  assert (CU : clean_up order page gap thr merging bs = match identify_floats order gap sorted with None => None | Some (fl, r) => match join_horizontally order thr merging r with None => None | Some out => Some (fl, out) end end).
  { unfold clean_up, sorted, kept. destruct bs as [|b0 t0]; reflexivity. }
  assert (PS : Permutation (map block_strip keep) sorted).
  { eapply Permutation_trans; [apply Permutation_map; apply Permutation_sym; exact PK|]. apply sort_blocks_perm. }
  assert (Back : forall c, In c sorted -> exists b, In b keep /\ In b bs /\ c = block_strip b).
  { intros c Hc. apply (Permutation_in _ (Permutation_sym PS)) in Hc. apply in_map_iff in Hc. destruct Hc as (b & <- & Hb). exists b. split; [exact Hb|]. split; [|reflexivity].
    eapply Permutation_in; [apply Permutation_sym; exact P|]. apply in_or_app. left. exact Hb. }
  destruct (floats_spec order gap sorted Ho) as (gs & M & G & EM & NM & F & SP & I).
  { intros c Hc Hi. destruct (Back c Hc) as (b & Hb & Hb' & ->). rewrite strip_lines, map_length. destruct (W b Hb' Hi) as (l & k & r & -> & _). cbn. lia. }
  assert (NS : forall c l, In c sorted -> In l (b_lines c) -> normal_line l).
  { intros c l Hc Hl. destruct (Back c Hc) as (b & Hb & _ & ->). rewrite strip_lines in Hl. apply in_map_iff in Hl. destruct Hl as (x & <- & Hx). eapply N; eassumption. }
  assert (TS : forall c, In c sorted -> b_bool c = true).
  { intros c Hc. destruct (Back c Hc) as (b & Hb & Hb' & ->). apply strip_truthy; [apply proper_truthy, Pb, Hb'| |intros l; apply N; exact Hb].
    destruct (K b Hb) as (_ & (g & Hg & _) & _). intros E. unfold block_glyphs in Hg. rewrite E in Hg. destruct Hg. }
  assert (Stay : forall c, In c (staying M sorted) -> In c sorted).
  { intros c Hc. eapply Permutation_in; [apply Permutation_sym; exact SP|]. apply in_or_app. right. exact Hc. }
  assert (FB : filter b_bool (clear_all M 0 sorted) = staying M sorted).
  { rewrite clear_all_kept, <- staying_unmarked. apply filter_all. intros c Hc. apply TS, Stay, Hc. }
  destruct (join_spec order thr merging (clear_all M 0 sorted) Ho T) as (out & lost & J & _).
  { intros c l Hc Tc Hl. assert (Hc' : In c (filter b_bool (clear_all M 0 sorted))) by (apply filter_In; auto). rewrite FB in Hc'. eapply NS; [apply Stay; exact Hc'|exact Hl]. }
  exists sorted, gs, M, out. rewrite CU, F, J. repeat (split; [first [assumption|reflexivity]|]). exact Back.
Qed.
Lemma clean_split order page gap thr merging bs keep drop :
  (forall l, Permutation l (order l)) -> proper page -> (forall b, In b bs -> proper (b_bbox b)) -> (forall b, In b bs -> b_img b = true -> wrapped_image b) ->
  1 # 1000000 < thr -> Permutation bs (keep ++ drop) -> (forall b, In b keep -> to_keep page b) -> (forall b, In b drop -> ~ to_keep page b) ->
  (forall b l, In b keep -> In l (b_lines b) -> normal_line (stripped l)) ->
  exists fl out floating flow lost, clean_up order page gap thr merging bs = Some (fl, out) /\
    Permutation (map block_strip keep) (floating ++ flow) /\ fl = map image_of floating /\ (forall b, In b floating -> b_img b = true) /\
    Permutation (spans_in flow) (spans_in out ++ flat_map ln_spans lost) /\
    (forall l, In l lost -> In l (lines_in flow) /\ overlaps_another thr (lines_in flow) l) /\
    (forall b, In b out -> b_img b = false /\ b_bool b = true).
Proof.
  intros Ho Pp Pb Wi T P K D N.
  destruct (clean_steps order page gap thr merging bs keep drop Ho Pp Pb Wi T P K D N) as (sorted & gs & M & out & PS & _ & _ & CU & J & FB & SP & I & _ & NS & _).
  destruct (join_spec order thr merging (clear_all M 0 sorted) Ho T) as (out' & lost & J' & J1 & J2 & J3).
  { intros c l Hc Tc Hl. assert (Hc' : In c (filter b_bool (clear_all M 0 sorted))) by (apply filter_In; auto). rewrite FB in Hc'. apply (NS c); [|exact Hl].
    eapply Permutation_in; [apply Permutation_sym; exact SP|]. apply in_or_app. right. exact Hc'. }
  rewrite J in J'. injection J' as <-. rewrite FB in J1, J2. exists (map image_of (flat_map (item_at sorted) M)), out, (flat_map (item_at sorted) M), (staying M sorted), lost.
  split; [exact CU|]. split; [eapply Permutation_trans; [exact PS|exact SP]|]. split; [reflexivity|]. split; [exact I|]. split; [exact J1|]. split; [exact J2|exact J3].
Qed.
Lemma seen_perm a b : Permutation a b -> Permutation (seen_spans a) (seen_spans b).
Proof. intros P. unfold seen_spans, glyphs, styled. apply Permutation_flat_map, Permutation_map, Permutation_flat_map. exact P. Qed.
Lemma seen_images bs : (forall b, In b bs -> wrapped_image b) -> seen_floating (map image_of bs) = seen_in bs.
Proof.
  induction bs as [|b t IH]; intros H; [reflexivity|]. unfold seen_floating, seen_in in *. cbn [map flat_map]. rewrite IH by (intros x Hx; apply H; right; exact Hx). f_equal.
  destruct (H b (or_introl eq_refl)) as (l & k & r & E & Es). unfold image_of, block_glyphs. rewrite E. cbn [flat_map]. rewrite Es. reflexivity.
Qed.
Lemma wrapped_strip b : wrapped_image b -> wrapped_image (block_strip b).
Proof.
  intros (l & k & r & E & Es). exists (stripped l), k, r. rewrite strip_lines, E. split; [reflexivity|]. unfold stripped, line_strip. rewrite Es. reflexivity.
Qed.
