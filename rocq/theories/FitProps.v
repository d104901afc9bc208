(** C82: a page of the pdf is one page in Word. *)
From Verif Require GeomProof PageModel PageSpec PageProps PageProof DocxModel SpacingProps.
From Verif Require Import AssignSpec AssignProof PySort LayoutModel TreeSpec TreeProof TreeProof3 TreeProof5 TreeProps LayoutProps CleanProps.
From Verif Require Import WholeSpec WholeProof WholeProof2 WholeProof4 WholeProof6 WholeProof8 WholeProps PlaceSpec PlaceProof2 PlaceProof3 PlaceProof4 PlaceProps FitProof FitSpec.
From Verif Require Import CleanModel SpacingSpec.
From Coq Require Import Lia Lqa Permutation Sorting.Sorted.
Notation length := List.length.
Open Scope Q_scope.

(** Pages of paragraphs (as in C74): there is one section for each page, and all rows of the page, and something more of height [extra]
    below them, such as the paragraph that holds the section break, fit on its page, provided the share of the free space below the text
    that is not used for the bottom margin has room for the roundings and for [extra]. *)
Theorem C82_one_page order rorder ids pm fuel rs tss tpl : (forall l, Permutation l (order l)) -> 1 # 1000000 < p_line_overlap pm -> 0 < p_float_layout pm ->
  0 <= p_factor_top pm <= 1 -> 0 <= p_factor_bottom pm <= 1 -> rs <> [] ->
  Forall2 (fun r ts => paragraph_page r ts /\ text_only ts /\ (forall l, In l (lines_in ts) -> Rect.covers (page_box r) (ln_bbox l)) /\
    forall c, clean_page order pm r = Some c -> one_column (PageModel.working_bbox (r_width r) (r_height r) (page_margin pm r c)) ts) rs tss ->
  exists ps secs body, Forall2 (fun r p => parse_page order rorder ids pm (S fuel) r = Ok p) rs ps /\ document_docx tpl ps = Some (secs, body) /\ length secs = length rs /\
    forall k r ts, nth_error rs k = Some r -> nth_error tss k = Some ts ->
      exists sec content, nth_error secs k = Some sec /\ nth_error (dsections [] body) k = Some content /\ DocxModel.s_height sec = r_height r /\
        length (flat_map paragraphs_of content) = length ts /\
        forall extra, room_for (p_factor_bottom pm) extra r ts ->
        forall e, In e (row_ends (top_margin sec) (flat_map paragraphs_of content) (map (fun t => length (b_lines t)) ts)) -> fits sec e extra.
Proof.
  intros Ho T Tf Ft Fb Ne F. destruct (C74_placed order rorder ids pm fuel rs tss tpl Ho T Tf Ft Fb Ne F) as (ps & secs & body & A & D & Pl). exists ps, secs, body. split; [exact A|]. split; [exact D|].
  assert (Np : ps <> []) by (destruct A; congruence). destruct (document_pars tpl ps _ body Np D) as (-> & _).
  split. { rewrite map_length. clear - A. induction A as [|x y l m _ _ IH]; [reflexivity|]. cbn [List.length]. rewrite IH. reflexivity. }
  intros k r ts Hr Ht. destruct (Pl k r ts Hr Ht) as (sec & content & Hs & Hc & Pk). exists sec, content. split; [exact Hs|]. split; [exact Hc|].
  assert (Pg : exists p, nth_error ps k = Some p /\ parse_page order rorder ids pm (S fuel) r = Ok p).
  { clear - A Hr. revert k Hr. induction A as [|x y l m E A IH]; intros [|k] Hr; try discriminate Hr; [|exact (IH k Hr)]. injection Hr as ->. exists y. split; [reflexivity|exact E]. }
  destruct Pg as (p & Hp & Ep). rewrite nth_error_map, Hp in Hs. injection Hs as <-.
  assert (Pq : paragraph_page r ts /\ text_only ts /\ (forall l, In l (lines_in ts) -> Rect.covers (page_box r) (ln_bbox l)) /\
    forall c, clean_page order pm r = Some c -> one_column (PageModel.working_bbox (r_width r) (r_height r) (page_margin pm r c)) ts).
  { clear - F Hr Ht. revert k Hr Ht. induction F as [|x y l m E F IH]; intros [|k] Hr Ht; try discriminate Hr; [|exact (IH k Hr Ht)]. injection Hr as ->. injection Ht as ->. exact E. }
  destruct Pq as (Pp & _ & Ip & Oc). destruct (page_bottom order rorder ids pm fuel r ts p Ho T Tf (proj1 Fb) Pp Ip Oc Ep) as (le & ri & to & bo & Es & Hb).
  destruct Pk as (left & right & top & bottom & Es' & _ & Ln & Pk). cbv zeta in Ln, Pk.
  split; [rewrite Es'; reflexivity|]. split; [exact Ln|]. intros extra Room e He.
  assert (Eb : bottom = bo) by congruence. assert (Et : top_margin (sp_section p) = top) by (rewrite Es'; reflexivity). rewrite Et in He. subst bo.
  unfold fits. rewrite Es'. cbn [DocxModel.s_margin DocxModel.s_height].
  apply In_nth_error in He. destruct He as (j & Hj). set (ws := flat_map paragraphs_of content) in *. set (rows := map (fun t => length (b_lines t)) ts) in *.
  assert (J : exists w t, nth_error ws j = Some w /\ nth_error ts j = Some t).
  { assert (Hj' : (j < length ws)%nat).
    { clear - Hj. revert Hj. generalize rows top. revert j. induction ws as [|w ws IH]; intros j rows0 y E; [destruct j; discriminate E|]. destruct rows0 as [|n rows0]; [destruct j; discriminate E|]. destruct j as [|j]; cbn [List.length]; [lia|]. cbn [row_ends nth_error] in E. specialize (IH _ _ _ E). lia. }
    destruct (nth_error ws j) as [w|] eqn:E1; [|apply nth_error_None in E1; lia]. destruct (nth_error ts j) as [t|] eqn:E2; [|apply nth_error_None in E2; lia]. exists w, t. split; reflexivity. }
  destruct J as (w & t & Hw & Htj). destruct (Pk j w t Hw Htj) as (_ & _ & e' & y & d & He' & Hd & (ls & l & El & Ey) & K).
  rewrite Hj in He'. injection He' as <-. apply Qabs_Qle_condition in K. destruct K as (_ & K).
  apply roundings_total in Hd. assert (Hl : In l (lines_in ts)) by (apply in_flat_map; exists t; split; [eapply nth_error_In, Htj|rewrite El; apply in_elt]).
  specialize (Hb l Hl). specialize (Room l Hl). fold rows in Room. set (f := p_factor_bottom pm * (r_height r - ry1 (ln_bbox l))) in *.
  assert (Ef : (1 - p_factor_bottom pm) * (r_height r - ry1 (ln_bbox l)) == r_height r - ry1 (ln_bbox l) - f) by (unfold f; ring).
  rewrite Ef in Room. clearbody f. lra.
Qed.
Print Assumptions C82_one_page.
(** Any page of paragraphs and tables, below each other (C63), in the writing area computed for the content [bl], [sh]: block after block
    ends, with the numbers written, above the bottom margin, with room for [extra] below it (for the border of a table, for example),
    provided the free space below has room for the roundings so far. *)
Theorem C82_blocks bl sh w h ft fb bs vs zs es : 0 <= fb ->
  (forall x, In x (bl ++ sh) -> GeomSpec.normal_box (e_bbox x)) ->
  let m := PageModel.cal_margin bl sh w h ft fb in
  let area := PageModel.working_bbox w h m in
  orientation bs = true -> parse_spacing area bs = Some vs -> (forall b, In b bs -> settable true b) -> tables_fit true area false (ry0 area) bs ->
  written false (ry0 area) bs vs zs -> budget 0 bs vs es ->
  forall k b z drift e extra, nth_error bs k = Some b -> nth_error zs k = Some z -> nth_error es k = Some drift ->
    In e (bl ++ sh) -> proper (e_bbox e) -> v_end true b <= ry1 (e_bbox e) -> ry1 (e_bbox e) <= h ->
    drift + (1 # 20) + extra <= (1 - fb) * (h - v_end true b) -> z + extra <= h - PageModel.m_bottom m.
Proof.
  intros Hf Hn m area Or Ep St Fit W B k b z drift e extra Hb Hz He In_e Pe Ev Eh Room.
  pose proof (SpacingProps.C63_laid_out area bs vs Ep) as (_ & L). rewrite Or in L. destruct (L St) as (ys & Fl).
  pose proof (SpacingProps.C63_written_drift area bs vs ys zs es) as Dr. cbv zeta in Dr. rewrite Or in Dr. specialize (Dr Ep St Fit Fl W B k b z drift Hb Hz He).
  apply Qabs_Qle_condition in Dr. destruct Dr as (_ & Dr). pose proof (bottom_share bl sh w h ft fb e Hf Hn In_e Pe Eh) as Q. fold m in Q.
  assert (K : 0 <= fb * (ry1 (e_bbox e) - v_end true b)) by (apply Qmult_le_0_compat; [exact Hf|lra]).
  set (ve := v_end true b) in *. set (ye := ry1 (e_bbox e)) in *. set (bo := PageModel.m_bottom m) in *. clearbody ve ye bo.
  set (a := fb * h). set (c := fb * ve). set (d := fb * ye).
  assert (E1 : fb * (ye - ve) == d - c) by (unfold d, c; ring). assert (E2 : (1 - fb) * (h - ve) == h - ve - a + c) by (unfold a, c; ring). assert (E3 : fb * (h - ye) == a - d) by (unfold a, d; ring).
  rewrite E1 in K. rewrite E2 in Room. rewrite E3 in Q. clearbody a c d. lra.
Qed.
Print Assumptions C82_blocks.

(* ------------------------------------------------------------------ *)
(** * Examples *)
(** The pages of C73 meet the hypotheses of [C82_one_page] (C73_paragraphs_nonvacuous, C74_placed_nonvacuous), with room for a paragraph of 15 pt. *)
Example C82_one_page_nonvacuous : room_for (p_factor_bottom default_params) 15 wh_page1 [wh_head; wh_body; wh_foot] /\ room_for (p_factor_bottom default_params) 15 wh_page2 [wh_head; wh_body] /\
  exists p1 p2 secs body, wh_parse wh_page1 = Ok p1 /\ wh_parse wh_page2 = Ok p2 /\ document_docx (DocxModel.mkSection 1 1 []) [p1; p2] = Some (secs, body) /\
    map (fun s => (Qred (top_margin s), Qred (DocxModel.s_height s - last (DocxModel.s_margin s) 0))) secs = [(25, 728); (25, 728)] /\
    map (fun x => map Qred (row_ends 25 (flat_map paragraphs_of (fst x)) (snd x))) (combine (dsections [] body) [[1; 3; 1]; [1; 3]]%nat) = [[60; 145; 215]; [60; 145]].
Proof.
  split; [|split].
  - intros l Hl. cbn in Hl. repeat (destruct Hl as [<-|Hl]; [vm_compute; discriminate|]). destruct Hl.
  - intros l Hl. cbn in Hl. repeat (destruct Hl as [<-|Hl]; [vm_compute; discriminate|]). destruct Hl.
  - do 4 eexists. split; [vm_compute; reflexivity|]. split; [vm_compute; reflexivity|]. split; [vm_compute; reflexivity|]. split; vm_compute; reflexivity.
Qed.
(** Paragraphs and tables. *)
Example C82_blocks_nonvacuous :
  let bl := [mkElem 0 (mkRect 10 20 100 130) LEFT_RIGHT] in
  let area := PageModel.working_bbox 200 300 (PageModel.cal_margin bl [] 200 300 (1 # 2) (1 # 2)) in
  let bs := SpacingProps.ex_bs in
  (forall x, In x (bl ++ []) -> GeomSpec.normal_box (e_bbox x)) /\ orientation bs = true /\ (forall b, In b bs -> settable true b) /\ tables_fit true area false (ry0 area) bs /\
  exists vs zs es, parse_spacing area bs = Some vs /\ written false (ry0 area) bs vs zs /\ budget 0 bs vs es /\ Forall2 Qeq zs [50; 80; 101; 130] /\
    (forall k b drift, nth_error bs k = Some b -> nth_error es k = Some drift -> v_end true b <= 130 /\ drift + (1 # 20) + 15 <= (1 - (1 # 2)) * (300 - v_end true b)).
Proof.
  cbv zeta. split. { intros x [<-|[]]. split; [split; vm_compute; discriminate|]. repeat split; apply decimal_check; vm_compute; reflexivity. }
  split; [reflexivity|]. split; [exact SpacingProps.ex_settable|]. split; [cbn [tables_fit SpacingProps.ex_bs]; repeat split; vm_compute; discriminate|].
  do 3 eexists. split; [vm_compute; reflexivity|].
  assert (R : row_count [ParaProps.tline 10 20 100 30; ParaProps.tline 10 40 60 50] 2) by (apply rc_next; [reflexivity|constructor]).
  split.
  { eapply (wr_text _ _ _ _ 2 _ _ _ _ R). eapply (wr_table _ _ _ _ _ _ 0); [right; split; [reflexivity|split; reflexivity]|].
    eapply (wr_table _ _ _ _ _ _ 9); [left; split; [exact I|]; split; [vm_compute; discriminate|]; split; [reflexivity|exists 90%Z; reflexivity]|].
    eapply (wr_text _ _ _ _ 1 _ _ _ _ (rc_one _)). constructor. }
  split; [eapply (bu_text _ _ _ 2 _ _ _ _ R); eapply bu_table; eapply bu_table; eapply (bu_text _ _ _ 1 _ _ _ _ (rc_one _)); constructor|].
  split; [repeat constructor|]. intros k b drift Hb He. do 4 (destruct k as [|k]; [cbn [nth_error SpacingProps.ex_bs] in Hb, He; injection Hb as <-; injection He as <-; split; vm_compute; discriminate|]). destruct k; discriminate Hb.
Qed.
(** Finding: text that reaches (almost) the bottom of its page.  Half of the free space below becomes the bottom margin; the section break is held by a
    paragraph of its own, in the 11 pt type of the template, for which there is no room: Word sets it on a page of its own, which stays
    blank.  Here the text ends 10 pt above the edge of the page, and 5 pt above the bottom margin. *)
Definition ft_page : rawpage := mkRaw 600 225 [wh_foot; wh_body; wh_head] [].
Theorem C82_blank_page_refuted : exists r ts,
  (paragraph_page r ts /\ text_only ts /\ (forall l, In l (lines_in ts) -> Rect.covers (page_box r) (ln_bbox l)) /\
   forall c, clean_page wh_order default_params r = Some c -> one_column (PageModel.working_bbox (r_width r) (r_height r) (page_margin default_params r c)) ts) /\
  exists p secs body sec content e, wh_parse r = Ok p /\ document_docx (DocxModel.mkSection 1 1 []) [p; p] = Some (secs, body) /\ nth_error secs 0 = Some sec /\ nth_error (dsections [] body) 0 = Some content /\
    (exists front, content = front ++ [DOther DocxModel.PBreak []]) /\
    In e (row_ends (top_margin sec) (flat_map paragraphs_of content) (map (fun t => length (b_lines t)) ts)) /\ fits sec e 5 /\ ~ fits sec e 11.
Proof.
  exists ft_page, [wh_head; wh_body; wh_foot]. split.
  - assert (K : forall b, In b [wh_head; wh_body; wh_foot] -> proper (b_bbox b) /\ to_keep (page_box ft_page) b /\ b_img b = false).
    { intros b H. cbn in H. repeat (destruct H as [<-|H]; [split; [split; reflexivity|]; split; [split; [repeat split; reflexivity|]; split; [eexists; split; [left; reflexivity|reflexivity]|intros l Hl; left; cbn in Hl; repeat (destruct Hl as [<-|Hl]; [reflexivity|]); destruct Hl]|reflexivity]|]). destruct H. }
    assert (OB : forall a b, other_block a b <-> forall l m, In l (b_lines a) -> In m (b_lines b) -> ln_pid l <> ln_pid m) by (intros a b; reflexivity).
    split; [split; [reflexivity|]; split; [split; reflexivity|]; split; [|split; [|split; [|split]]]|split; [|split]].
    + intros b H. apply K. cbn in H |- *. tauto.
    + assert (E : map block_strip (r_blocks ft_page) = [wh_foot; wh_body; wh_head]) by (vm_compute; reflexivity). rewrite E. change [wh_foot; wh_body; wh_head] with (rev [wh_head; wh_body; wh_foot]). apply Permutation_sym, Permutation_rev.
    + rewrite Forall_forall. intros b H. apply wh_paragraph. exact H.
    + repeat constructor; intros l m Hl Hm; cbn in Hl, Hm; repeat (destruct Hl as [<-|Hl]; [repeat (destruct Hm as [<-|Hm]; [discriminate|]); destruct Hm|]); destruct Hl.
    + unfold top_down. cbn [lines_in flat_map b_lines wh_head wh_body wh_foot app map]. repeat first [apply SSorted_nil|apply SSorted_cons|apply Forall_nil|apply Forall_cons|vm_compute; discriminate].
    + intros l s Hl Hs; cbn in Hl; repeat (destruct Hl as [<-|Hl]; [destruct Hs as [<-|[]]; eexists; reflexivity|]); destruct Hl.
    + intros l Hl. cbn in Hl. repeat (destruct Hl as [<-|Hl]; [unfold Rect.covers; repeat split; vm_compute; discriminate|]). destruct Hl.
    + intros c E. vm_compute in E. injection E as <-. exists (wh_line 66 2 50 100 550 115), (wh_line 65 1 50 50 150 60), (wh_line 69 3 50 200 250 215). cbn [lines_in flat_map b_lines wh_head wh_body wh_foot app].
      split; [right; left; reflexivity|]. split; [left; reflexivity|]. split; [do 4 right; left; reflexivity|]. split; [split; vm_compute; discriminate|]. split; [left; vm_compute; reflexivity|]. split; [left; vm_compute; reflexivity|]. split; vm_compute; discriminate.
  - do 6 eexists. split; [vm_compute; reflexivity|]. split; [vm_compute; reflexivity|]. split; [reflexivity|]. split; [vm_compute; reflexivity|].
    split; [eexists [_; _; _]; reflexivity|]. split; [right; right; left; vm_compute; reflexivity|]. split; [vm_compute; discriminate|]. intros X. vm_compute in X. apply X. reflexivity.
Qed.
Print Assumptions C82_blank_page_refuted.
