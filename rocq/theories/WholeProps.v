(** C73: pages as a whole, from the raw page to the Word document. *)
From Verif Require GeomProof TextProof.
From Verif Require Import AssignSpec AssignProof PySort FlowModel FlowSpec LayoutSpec LayoutProps TreeSpec TreeProof TreeProof3 TreeProof5 TreeProps.
From Verif Require Import CleanSpec CleanProof2 CleanProps.
From Verif Require Import CleanModel CleanSpec FlowModel FlowSpec LayoutModel WholeModel WholeSpec.
From Verif Require Import WholeProof WholeProof2 WholeProof3 WholeProof4 WholeProof5 WholeProof6 WholeProof7 WholeProof8.
From Verif Require DocxModel PageModel ShapeModel.
From Coq Require Import Lia Lqa Permutation Sorting.Sorted.
Notation length := List.length.
Open Scope Q_scope.

(** A page of paragraphs is parsed to its paragraphs. *)
Lemma page_parsed order rorder ids pm fuel r ts : (forall l, Permutation l (order l)) -> 1 # 1000000 < p_line_overlap pm -> 0 < p_float_layout pm ->
  paragraph_page r ts -> (forall c, clean_page order pm r = Some c -> one_column (PageModel.working_bbox (r_width r) (r_height r) (page_margin pm r c)) ts) ->
  exists p, parse_page order rorder ids pm (S fuel) r = Ok p /\ (exists c, clean_page order pm r = Some c /\ sp_section p = page_section r (page_margin pm r c)) /\
    map block_entry (sp_blocks p) = map (fun t => Some (line_glyphs (b_lines t))) ts /\ sp_floats p = [] /\ forall b, In b (sp_blocks p) -> regular b.
Proof.
  intros Ho T Tf Pp Oc. destruct (page_laid order rorder ids pm fuel r ts Ho T Tf Pp Oc) as (c & ss & Cl & E & _ & F & _). eexists. split; [exact E|]. cbn [sp_section sp_blocks sp_floats].
  split; [exists c; split; [exact Cl|reflexivity]|]. split; [|split; [reflexivity|]].
  - clear - F. revert ts F. induction ss as [|s ss IH]; intros ts F; inversion F as [|u ? us ? Su Fu Eu]; subst; destruct ts as [|t ts]; try discriminate; [reflexivity|]. cbn [map] in *. injection Eu as -> ->. destruct Su as (x & -> & L & _). cbn [block_entry]. rewrite L. f_equal. apply IH, Fu.
  - clear - F. intros b Hb. induction F as [|u s us ss (x & -> & _) F IH]; [destruct Hb|]. destruct Hb as [<-|Hb]; [constructor|apply IH, Hb].
Qed.

(** Pages of paragraphs - lines of text beneath each other, in blocks beneath each other, no drawings, no columns: the
    conversion does not fail, and the document shows, page by page, each paragraph of the pdf as one paragraph,
    with the same characters, pictures and formats in the same order, from the top to the bottom; no tables, nothing else;
    each section has the size of its page and the margins calculated for it (C35).  Whatever the order of the blocks in the pdf. *)
Theorem C73_paragraphs order rorder ids pm fuel rs tss tpl : (forall l, Permutation l (order l)) -> 1 # 1000000 < p_line_overlap pm -> 0 < p_float_layout pm -> rs <> [] ->
  Forall2 (fun r ts => paragraph_page r ts /\
    forall c, clean_page order pm r = Some c -> one_column (PageModel.working_bbox (r_width r) (r_height r) (page_margin pm r c)) ts) rs tss ->
  exists ps secs body, Forall2 (fun r p => parse_page order rorder ids pm (S fuel) r = Ok p) rs ps /\ document_docx tpl ps = Some (secs, body) /\
    Forall2 (fun r s => exists c, clean_page order pm r = Some c /\ s = page_section r (page_margin pm r c)) rs secs /\
    Forall2 (fun content ts => flat_map entry content = map (fun t => Some (line_glyphs (b_lines t))) ts) (dsections [] body) tss /\
    flat_map floats_of body = [] /\ well_formed body.
Proof.
  intros Ho T Tf Ne F.
  assert (G : exists ps, Forall2 (fun r p => parse_page order rorder ids pm (S fuel) r = Ok p) rs ps /\ Forall2 (fun r p => exists c, clean_page order pm r = Some c /\ sp_section p = page_section r (page_margin pm r c)) rs ps /\
    Forall2 (fun p ts => map block_entry (sp_blocks p) = map (fun t => Some (line_glyphs (b_lines t))) ts /\ sp_floats p = [] /\ forall b, In b (sp_blocks p) -> regular b) ps tss).
  { clear Ne. induction F as [|r ts rs tss (Pp & Oc) F IH]; [exists []; repeat split; constructor|]. destruct IH as (ps & A & B & C).
    destruct (page_parsed order rorder ids pm fuel r ts Ho T Tf Pp Oc) as (p & E & S & En & Fl & R). exists (p :: ps). split; [constructor; assumption|]. split; constructor; auto. }
  destruct G as (ps & A & B & C).
  assert (Np : ps <> []) by (destruct A; congruence).
  destruct (document_written tpl ps Np) as (body & D & Wf & _ & _ & _).
  { intros p b Hp Hb. clear - C Hp Hb. induction C as [|p' ts ps tss (_ & _ & R) C IH]; [destruct Hp|]. destruct Hp as [->|Hp]; [apply R, Hb|apply IH, Hp]. }
  destruct (C70_blocks tpl ps _ body Np D) as (Sc & En & _ & Fl).
  exists ps, (map sp_section ps), body. split; [exact A|]. split; [exact D|]. split; [|split; [|split; [|exact Wf]]].
  - clear - B. induction B; constructor; assumption.
  - clear - En C. revert tss C. generalize dependent (dsections [] body). intros l En. induction En as [|content p l ps E En IH]; intros tss C; inversion C as [|? ts ? tss' (E1 & _) C']; subst; constructor; [congruence|apply IH, C'].
  - rewrite Fl. clear - C. induction C as [|p ts ps tss (_ & E & _) C IH]; [reflexivity|]. cbn [flat_map]. rewrite E, IH. reflexivity.
Qed.
Print Assumptions C73_paragraphs.

(* ------------------------------------------------------------------ *)
(** * Nothing is made up *)
(** Any pages as extracted (C60): if all are parsed and the document is written, each character and each
    picture in a section of the document was on its page, or is white space; formats besides those it had are given
    by the drawings and links of that page (after their clean-up); floating pictures were on the pages. *)
Theorem C73_nothing_invented order rorder ids pm fuel rs ps tpl secs body : (forall l, Permutation l (order l)) -> 1 # 1000000 < p_line_overlap pm -> rs <> [] ->
  (forall r, In r rs -> exists keep drop, page_of (page_box r) (r_blocks r) keep drop) ->
  Forall2 (fun r p => parse_page order rorder ids pm fuel r = Ok p) rs ps -> document_docx tpl ps = Some (secs, body) ->
  Forall2 (fun r s => exists c, clean_page order pm r = Some c /\ s = page_section r (page_margin pm r c)) rs secs /\
  Forall2 (fun content r => exists c, clean_page order pm r = Some c /\ forall g, In g (flat_map ditem_text content) ->
    incl (seen_of (fst g)) (seen_in (r_blocks r)) /\ from_page (text_of (map LText (c_blocks c))) (c_shapes c) g) (dsections [] body) rs /\
  forall k, In k (flat_map floats_of body) -> exists r, In r rs /\ In (SeenImage k) (seen_in (r_blocks r)).
Proof.
  intros Ho T Ne Pg F D. assert (Np : ps <> []) by (destruct F; congruence).
  destruct (C70_blocks tpl ps secs body Np D) as (-> & _ & In' & Fl).
  assert (One : forall r p, (exists keep drop, page_of (page_box r) (r_blocks r) keep drop) -> parse_page order rorder ids pm fuel r = Ok p ->
    (exists c, clean_page order pm r = Some c /\ sp_section p = page_section r (page_margin pm r c)) /\
    (exists c, clean_page order pm r = Some c /\ forall g, In g (flat_map sblock_text (sp_blocks p)) -> incl (seen_of (fst g)) (seen_in (r_blocks r)) /\ from_page (text_of (map LText (c_blocks c))) (c_shapes c) g) /\
    forall k, In k (sp_floats p) -> In (SeenImage k) (seen_in (r_blocks r))).
  { clear - Ho T. intros r p (keep & drop & Po) E. destruct (C60_accounted order (page_box r) (p_image_gap pm) (p_line_overlap pm) (p_line_merging pm) (r_blocks r) keep drop Ho T Po) as (fl & out & lost & Cu & Pm & _ & _).
    destruct Po as (_ & _ & _ & Pk & _). unfold parse_page, clean_page in E. rewrite Cu in E. cbn [option_map fst snd] in E.
    set (c := mkClean (flat_map (fun f => match f with Some (k, _) => [k] | None => [] end) fl) (sort_blocks out) (name_shapes 1 (ShapeModel.clean_up (page_box r) (p_border_width pm) (p_shape_merging pm) (p_shape_min pm) (r_shapes r)))) in *.
    match type of E with bind ?x _ = _ => destruct x as [[w' bs]| |] eqn:El end; [|discriminate E|discriminate E]. cbn [bind snd] in E.
    match type of E with match ?x with _ => _ end = _ => destruct x as [sb|] eqn:Es end; [|discriminate E]. injection E as <-. cbn [sp_section sp_blocks sp_floats].
    assert (Keep : incl (seen_in keep) (seen_in (r_blocks r))).
    { intros x Hx. unfold seen_in in *. apply in_flat_map in Hx. destruct Hx as (b & Hb & Hx). apply in_flat_map. exists b. split; [eapply Permutation_in; [apply Permutation_sym, Pk|]; apply in_or_app; left; exact Hb|exact Hx]. }
    split; [exists c; split; [unfold clean_page; rewrite Cu; reflexivity|reflexivity]|]. split.
    - exists c. split; [unfold clean_page; rewrite Cu; reflexivity|]. intros g Hg. apply (layout_incl _ _ _ _ _ Es) in Hg.
      pose proof (C66_nothing_invented order rorder ids (layout_settings pm) fuel true (LayoutModel.mkW (c_shapes c) 0) _ _ _ _ _ Ho El g Hg) as Fp. cbn [w_shapes] in Fp. split; [|exact Fp].
      destruct Fp as (old & new & Hin & _). intros x Hx. apply Keep. eapply Permutation_in; [apply Permutation_sym, Pm|]. apply in_or_app. left.
      unfold text_of in Hin. apply in_flat_map in Hin. destruct Hin as (b & Hb & Hin). apply in_map_iff in Hb. destruct Hb as (t & <- & Ht). cbn [block_text] in Hin.
      unfold seen_in. apply in_flat_map. exists t. split; [eapply Permutation_in; [apply Permutation_sym, sort_blocks_perm|exact Ht]|].
      apply in_flat_map. exists (fst g). split; [|exact Hx]. unfold block_glyphs. unfold line_glyphs in Hin. apply in_flat_map in Hin. destruct Hin as (l & Hl & Hin). apply in_flat_map. exists l. split; [exact Hl|].
      unfold glyphs. apply in_map_iff. exists (fst g, old). split; [reflexivity|exact Hin].
    - intros k Hk. apply Keep. eapply Permutation_in; [apply Permutation_sym, Pm|]. apply in_or_app. right. apply in_or_app. left. clear - Hk. unfold seen_floating. apply in_flat_map in Hk. destruct Hk as (f & Hf & Hk). apply in_flat_map. exists f. split; [exact Hf|]. destruct f as [[j r']|]; [|destruct Hk]. destruct Hk as [->|[]]. left. reflexivity. }
  split; [|split].
  - clear - One F Pg. induction F as [|r p rs ps E F IH]; constructor; [apply (One r p (Pg r (or_introl eq_refl)) E)|apply IH; intros x Hx; apply Pg; right; exact Hx].
  - clear - One F Pg In'. revert In'. generalize (dsections [] body). induction F as [|r p rs ps E F IH]; intros l I; inversion I as [|content ? l' ? I1 I2]; subst; constructor.
    + destruct (One r p (Pg r (or_introl eq_refl)) E) as (_ & (c & Ec & H) & _). exists c. split; [exact Ec|]. intros g Hg. apply H, I1, Hg.
    + apply IH; [intros x Hx; apply Pg; right; exact Hx|exact I2].
  - rewrite Fl. intros k Hk. apply in_flat_map in Hk. destruct Hk as (p & Hp & Hk). clear - One F Pg Hp Hk. induction F as [|r p' rs ps E F IH]; [destruct Hp|]. destruct Hp as [->|Hp].
    + exists r. split; [left; reflexivity|]. apply (One r p (Pg r (or_introl eq_refl)) E), Hk.
    + destruct (IH (fun x Hx => Pg x (or_intror Hx)) Hp) as (r' & Hr & H). exists r'. split; [right; exact Hr|exact H].
Qed.
Print Assumptions C73_nothing_invented.

(* ------------------------------------------------------------------ *)
(** * Concrete pages *)
(** Two paragraphs and a heading, given from the bottom to the top; a second page. *)
Definition wh_line (ch : Z) (pid : nat) (a b c d : Z) : line := ly_line ch pid a b c d.
Definition wh_head : tblock := mkBlk false (ly_rect 50 50 150 60) [wh_line 65 1 50 50 150 60].
Definition wh_body : tblock := mkBlk false (ly_rect 50 100 550 145) [wh_line 66 2 50 100 550 115; wh_line 67 2 50 115 550 130; wh_line 68 2 50 130 200 145].
Definition wh_foot : tblock := mkBlk false (ly_rect 50 200 250 215) [wh_line 69 3 50 200 250 215].
Definition wh_page1 : rawpage := mkRaw 600 800 [wh_foot; wh_body; wh_head] [].
Definition wh_page2 : rawpage := mkRaw 600 800 [wh_body; wh_head] [].
Definition wh_order (l : list nat) : list nat := rev l.
Definition wh_parse (r : rawpage) : res spage := parse_page wh_order (fun l => l) S default_params 3 r.
Lemma wh_one ch pid a b c d : (a < c)%Z -> (b < d)%Z -> normal_line (wh_line ch pid a b c d).
Proof.
  intros H1 H2. assert (P : proper (ly_rect a b c d)) by (split; cbn; rewrite <- Zlt_Qlt; assumption). split; [exact P|]. split; [apply int_box|]. intros s [<-|[]]. cbn [span_bbox span_bool ts_bbox]. split; [apply proper_valid; exact P|]. split; [apply int_box|]. apply GeomProof.proper_truthy. exact P.
Qed.
Lemma wh_paragraph b : In b [wh_head; wh_body; wh_foot] -> paragraph b.
Proof.
  intros H. assert (L : forall l, In l (b_lines b) -> normal_line l /\ ln_dir l = LEFT_RIGHT).
  { intros l Hl. cbn in H. repeat (destruct H as [<-|H]; [cbn in Hl; repeat (destruct Hl as [<-|Hl]; [split; [apply wh_one; lia|reflexivity]|]); destruct Hl|]). destruct H. }
  split; [cbn in H; repeat (destruct H as [<-|H]; [intros X; discriminate X|]); destruct H|]. split.
  - split; [cbn in H; repeat (destruct H as [<-|H]; [apply int_box|]); destruct H|]. split; [cbn in H; repeat (destruct H as [<-|H]; [split; reflexivity|]); destruct H|].
    intros l Hl. cbn in H. repeat (destruct H as [<-|H]; [cbn in Hl; repeat (destruct Hl as [<-|Hl]; [split; [repeat split; vm_compute; discriminate|intros s [<-|[]]; repeat split; vm_compute; discriminate]|]); destruct Hl|]). destruct H.
  - split; [cbn in H; repeat (destruct H as [<-|H]; [discriminate|]); destruct H|]. split; [|exact L].
    cbn in H. repeat (destruct H as [<-|H]; [eexists; intros l Hl; cbn in Hl; repeat (destruct Hl as [<-|Hl]; [reflexivity|]); destruct Hl|]). destruct H.
Qed.
Example C73_paragraphs_nonvacuous :
  Forall2 (fun r ts => paragraph_page r ts /\
    forall c, clean_page wh_order default_params r = Some c -> one_column (PageModel.working_bbox (r_width r) (r_height r) (page_margin default_params r c)) ts)
    [wh_page1; wh_page2] [[wh_head; wh_body; wh_foot]; [wh_head; wh_body]] /\
  exists p1 p2 secs body, wh_parse wh_page1 = Ok p1 /\ wh_parse wh_page2 = Ok p2 /\ document_docx (DocxModel.mkSection 1 1 []) [p1; p2] = Some (secs, body) /\
    map (fun content => map (option_map (map (fun g => match fst g with GChar c _ => ch_c c | GImage _ _ => 0%Z end))) (flat_map entry content)) (dsections [] body) =
      [[Some [65]; Some [66; 67; 68]; Some [69]]; [Some [65]; Some [66; 67; 68]]]%Z.
Proof.
  split.
  - assert (K : forall b, In b [wh_head; wh_body; wh_foot] -> proper (b_bbox b) /\ to_keep (page_box wh_page1) b /\ b_img b = false).
    { intros b H. cbn in H. repeat (destruct H as [<-|H]; [split; [split; reflexivity|]; split; [split; [repeat split; reflexivity|]; split; [eexists; split; [left; reflexivity|reflexivity]|intros l Hl; left; cbn in Hl; repeat (destruct Hl as [<-|Hl]; [reflexivity|]); destruct Hl]|reflexivity]|]). destruct H. }
    assert (OB : forall a b, other_block a b <-> forall l m, In l (b_lines a) -> In m (b_lines b) -> ln_pid l <> ln_pid m) by (intros a b; reflexivity).
    constructor; [|constructor; [|constructor]]; (split; [split; [reflexivity|]; split; [split; reflexivity|]; split; [|split; [|split; [|split]]]|]).
    + intros b H. apply K. cbn in H |- *. tauto.
    + assert (E : map block_strip (r_blocks wh_page1) = [wh_foot; wh_body; wh_head]) by (vm_compute; reflexivity). rewrite E. change [wh_foot; wh_body; wh_head] with (rev [wh_head; wh_body; wh_foot]). apply Permutation_sym, Permutation_rev.
    + rewrite Forall_forall. intros b H. apply wh_paragraph. exact H.
    + repeat constructor; intros l m Hl Hm; cbn in Hl, Hm; repeat (destruct Hl as [<-|Hl]; [repeat (destruct Hm as [<-|Hm]; [discriminate|]); destruct Hm|]); destruct Hl.
    + unfold top_down. cbn [lines_in flat_map b_lines wh_head wh_body wh_foot app map]. repeat first [apply SSorted_nil|apply SSorted_cons|apply Forall_nil|apply Forall_cons|vm_compute; discriminate].
    + intros c E. vm_compute in E. injection E as <-. exists (wh_line 66 2 50 100 550 115), (wh_line 65 1 50 50 150 60), (wh_line 69 3 50 200 250 215). cbn [lines_in flat_map b_lines wh_head wh_body wh_foot app].
      split; [right; left; reflexivity|]. split; [left; reflexivity|]. split; [do 4 right; left; reflexivity|]. split; [split; vm_compute; discriminate|]. split; [left; vm_compute; reflexivity|]. split; [left; vm_compute; reflexivity|]. split; vm_compute; discriminate.
    + intros b H. apply K. cbn in H |- *. tauto.
    + assert (E : map block_strip (r_blocks wh_page2) = [wh_body; wh_head]) by (vm_compute; reflexivity). rewrite E. apply perm_swap.
    + rewrite Forall_forall. intros b H. apply wh_paragraph. cbn in H |- *. tauto.
    + repeat constructor; intros l m Hl Hm; cbn in Hl, Hm; repeat (destruct Hl as [<-|Hl]; [repeat (destruct Hm as [<-|Hm]; [discriminate|]); destruct Hm|]); destruct Hl.
    + unfold top_down. cbn [lines_in flat_map b_lines wh_head wh_body wh_foot app map]. repeat first [apply SSorted_nil|apply SSorted_cons|apply Forall_nil|apply Forall_cons|vm_compute; discriminate].
    + intros c E. vm_compute in E. injection E as <-. exists (wh_line 67 2 50 115 550 130), (wh_line 65 1 50 50 150 60), (wh_line 68 2 50 130 200 145). cbn [lines_in flat_map b_lines wh_head wh_body wh_foot app].
      split; [right; right; left; reflexivity|]. split; [left; reflexivity|]. split; [do 3 right; left; reflexivity|]. split; [split; vm_compute; discriminate|]. split; [left; vm_compute; reflexivity|]. split; [left; vm_compute; reflexivity|]. split; vm_compute; discriminate.
  - do 4 eexists. split; [vm_compute; reflexivity|]. split; [vm_compute; reflexivity|]. split; [vm_compute; reflexivity|]. vm_compute. reflexivity.
Qed.
(** A page with a bordered cell, text in it and above, a picture behind text, a block of blanks. *)
Definition wh_cell : tblock := mkBlk false (ly_rect 100 300 500 315) [wh_line 70 4 100 300 500 315].
Definition wh_picture : tblock := mkBlk true (ly_rect 40 90 560 160) [mkLine (ly_rect 40 90 560 160) LEFT_RIGHT [SImage 7 (ly_rect 40 90 560 160)] (Some 5%nat) false].
Definition wh_blank : tblock := mkBlk false (ly_rect 50 700 60 710) [wh_line 32 6 50 700 60 710].
Definition wh_page3 : rawpage := mkRaw 600 800 [wh_head; wh_picture; wh_body; wh_cell; wh_blank]
  [ly_stroke 1 90 290 510 290; ly_stroke 2 90 330 510 330; ly_stroke 3 90 290 90 330; ly_stroke 4 510 290 510 330].
Example C73_nothing_invented_nonvacuous :
  page_of (page_box wh_page3) (r_blocks wh_page3) [wh_head; wh_picture; wh_body; wh_cell] [wh_blank] /\
  exists p secs body, wh_parse wh_page3 = Ok p /\ document_docx (DocxModel.mkSection 1 1 []) [p] = Some (secs, body) /\
    map (fun content => map (option_map (map (fun g => match fst g with GChar c _ => ch_c c | GImage _ _ => 0%Z end))) (flat_map entry content)) (dsections [] body) =
      [[Some [65]; Some [66; 67; 68]; None]]%Z /\ tr_letters (flat_map ditem_text body) = [65; 66; 67; 68; 70]%Z /\ flat_map floats_of body = [7%nat].
Proof.
  split.
  - split; [split; reflexivity|]. split; [intros b Hb; cbn in Hb; repeat (destruct Hb as [<-|Hb]; [split; reflexivity|]); destruct Hb|].
    split; [intros b Hb Hi; cbn in Hb; repeat (destruct Hb as [<-|Hb]; [first [discriminate Hi|eexists _, _, _; split; reflexivity]|]); destruct Hb|].
    split; [apply Permutation_refl|].
    split. { intros b Hb; cbn in Hb. repeat (destruct Hb as [<-|Hb]; [split; [cbn; repeat split; reflexivity|split; [eexists; split; [left; reflexivity|first [exact I|reflexivity]]|intros l Hl; left; cbn in Hl; repeat (destruct Hl as [<-|Hl]; [reflexivity|]); destruct Hl]]|]). destruct Hb. }
    split. { intros b [<-|[]] (A & (g & Hg & V) & _). cbn in Hg; destruct Hg as [<-|[]]; discriminate V. }
    intros b l Hb Hl; cbn in Hb. repeat (destruct Hb as [<-|Hb]; [cbn in Hl; repeat (destruct Hl as [<-|Hl]; [apply normal_ex; [reflexivity|split; reflexivity|apply int_box|intros s [<-|[]]; reflexivity]|]); destruct Hl|]). destruct Hb.
  - do 3 eexists. split; [vm_compute; reflexivity|]. split; [vm_compute; reflexivity|]. split; [vm_compute; reflexivity|]. split; vm_compute; reflexivity.
Qed.
