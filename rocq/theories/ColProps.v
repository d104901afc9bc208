(** C90: a page set in two columns, from the raw page to the Word document. *)
From Verif Require GeomProof TextProof.
From Verif Require Import AssignSpec AssignProof PySort FlowModel FlowSpec LayoutSpec LayoutProps TreeSpec TreeProof TreeProof3 TreeProof5 TreeProps.
From Verif Require Import CleanSpec CleanProof2 CleanProps.
From Verif Require Import TabSpec GridProps WholeProps TabProps ColSpec ColProof3.
From Verif Require Import CleanModel CleanSpec FlowModel FlowSpec LayoutModel WholeModel WholeSpec.
From Verif Require DocxModel PageModel ShapeModel.
From Verif Require Import CleanModel.
From Coq Require Import Lia Lqa Permutation Sorting.Sorted.
Notation length := List.length.
Open Scope Q_scope.

(** A page of nothing but two columns of paragraphs, in whatever order the blocks come and however lines of the two stand beside each
    other: the page is parsed, and its document is one section with one table of one row and two cells, without borders or shading; the first
    cell shows the paragraphs of the left column in their order, the second those of the right one. No text is lost, doubled or moved into the
    other column. *)
Theorem C90_columns order rorder ids pm p left right fuel tpl : (forall l, Permutation l (order l)) ->
  1 # 1000000 < p_line_overlap pm -> 0 < p_float_layout pm -> 0 <= p_line_merging pm ->
  column_page (p_image_gap pm) (p_line_merging pm) p left right ->
  (forall c, clean_page order pm p = Some c -> let area := PageModel.working_bbox (r_width p) (r_height p) (page_margin pm p c) in
     in_halves area left right /\ forall b, In b (c_blocks c) -> balanced area (b_bbox b)) ->
  exists c pg body ind hs t, clean_page order pm p = Some c /\ parse_page order rorder ids pm (S (S fuel)) p = Ok pg /\
    document_docx tpl [pg] = Some ([page_section p (page_margin pm p c)], body) /\ well_formed body /\ dsections [] body = [body] /\
    flat_map entry body = [None] /\ In (DTable ind hs t) body /\ columns_shown left right t.
Proof.
  intros Ho S1 S2 S3 Pg Ar. destruct (columns_written order rorder ids pm Ho S1 S2 S3 p left right Pg Ar fuel tpl) as (c & pg & body & ind & hs & t & A1 & A2 & A3 & A4 & A5 & A6 & A7 & A8 & _).
  exists c, pg, body, ind, hs, t. split; [exact A1|]. split; [exact A2|]. split; [exact A3|]. split; [exact A4|]. split; [exact A5|]. split; [exact A6|]. split; [exact A7|exact A8].
Qed.
Print Assumptions C90_columns.

(** Two paragraphs in each column: the first ones beside each other, of different length; the second ones not. *)
Definition co_a : tblock := mkBlk false (ly_rect 50 50 280 80) [wh_line 65 1 50 50 280 65; wh_line 66 1 50 65 200 80].
Definition co_b : tblock := tb_block 67 2 50 100 280 115.
Definition co_c : tblock := tb_block 68 3 320 50 550 65.
Definition co_d : tblock := tb_block 69 4 320 140 550 155.
Definition co_page : rawpage := mkRaw 600 800 [co_d; co_b; co_c; co_a] [].
Definition co_cells (body : list ditem) : list (list (list (option (list Z)))) :=
  flat_map (fun x => match x with DTable ind hs t => map (map (fun c => tb_letters (flat_map entry (WordModel.t_body c)))) t | _ => [] end) body.
Example C90_nonvacuous : column_page (p_image_gap default_params) (p_line_merging default_params) co_page [co_a; co_b] [co_c; co_d] /\
  (forall c, clean_page wh_order default_params co_page = Some c -> let area := PageModel.working_bbox (r_width co_page) (r_height co_page) (page_margin default_params co_page c) in
     in_halves area [co_a; co_b] [co_c; co_d] /\ (exists b, In b (c_blocks c) /\ List.length (b_lines b) = 3%nat) /\ forall b, In b (c_blocks c) -> balanced area (b_bbox b)) /\
  (1 # 1000000 < p_line_overlap default_params /\ 0 < p_float_layout default_params /\ 0 <= p_line_merging default_params) /\
  exists pg secs body, wh_parse co_page = Ok pg /\ document_docx (DocxModel.mkSection 1 1 []) [pg] = Some (secs, body) /\
    co_cells body = [[[Some [65; 66]; Some [67]]; [Some [68]; Some [69]]]]%Z.
Proof.
  split; [|split; [|split]].
  - split; [reflexivity|]. split; [split; reflexivity|]. split.
    { intros b H. cbn in H. repeat (destruct H as [<-|H]; [split; [split; reflexivity|]; split; [split; [repeat split; reflexivity|]; split; [eexists; split; [left; reflexivity|reflexivity]|intros l Hl; left; cbn in Hl; repeat (destruct Hl as [<-|Hl]; [reflexivity|]); destruct Hl]|intros X; discriminate X]|]). destruct H. }
    split.
    { assert (E : map block_strip (r_blocks co_page) = [co_d; co_b; co_c; co_a]) by (vm_compute; reflexivity). rewrite E. apply NoDup_Permutation_bis.
      - repeat (constructor; [cbn [In]; intros X; repeat (destruct X as [X|X]; [discriminate X|]); exact X|]). constructor.
      - cbn. lia.
      - intros b Hb. cbn [In app] in *. tauto. }
    split.
    { rewrite Forall_forall. intros b H. cbn [app] in H.
      assert (L : forall l, In l (b_lines b) -> normal_line l /\ ln_dir l = LEFT_RIGHT).
      { intros l Hl. cbn in H. repeat (destruct H as [<-|H]; [cbn in Hl; repeat (destruct Hl as [<-|Hl]; [split; [apply wh_one; lia|reflexivity]|]); destruct Hl|]). destruct H. }
      split; [cbn in H; repeat (destruct H as [<-|H]; [intros X; discriminate X|]); destruct H|]. split.
      + split; [cbn in H; repeat (destruct H as [<-|H]; [apply int_box|]); destruct H|]. split; [cbn in H; repeat (destruct H as [<-|H]; [split; reflexivity|]); destruct H|].
        intros l Hl. cbn in H. repeat (destruct H as [<-|H]; [cbn in Hl; repeat (destruct Hl as [<-|Hl]; [split; [repeat split; vm_compute; discriminate|intros s [<-|[]]; repeat split; vm_compute; discriminate]|]); destruct Hl|]). destruct H.
      + split; [cbn in H; repeat (destruct H as [<-|H]; [discriminate|]); destruct H|]. split; [|exact L].
        cbn in H. repeat (destruct H as [<-|H]; [eexists; intros l Hl; cbn in Hl; repeat (destruct Hl as [<-|Hl]; [reflexivity|]); destruct Hl|]). destruct H. }
    split; [repeat constructor; intros l m Hl Hm; cbn in Hl, Hm; repeat (destruct Hl as [<-|Hl]; [repeat (destruct Hm as [<-|Hm]; [discriminate|]); destruct Hm|]); destruct Hl|].
    split; [unfold top_down; cbn [lines_in flat_map b_lines co_a co_b tb_block app map]; repeat first [apply SSorted_nil|apply SSorted_cons|apply Forall_nil|apply Forall_cons|vm_compute; discriminate]|].
    split; [unfold top_down; cbn [lines_in flat_map b_lines co_c co_d tb_block app map]; repeat first [apply SSorted_nil|apply SSorted_cons|apply Forall_nil|apply Forall_cons|vm_compute; discriminate]|].
    split; [intros l k Hl Hk; cbn in Hl, Hk; repeat (destruct Hl as [<-|Hl]; [repeat (destruct Hk as [<-|Hk]; [vm_compute; reflexivity|]); destruct Hk|]); destruct Hl|].
    intros l s Hl Hs. cbn in Hl. repeat (destruct Hl as [<-|Hl]; [destruct Hs as [<-|[]]; split; reflexivity|]). destruct Hl.
  - intros c E. vm_compute in E. injection E as <-. split; [|split].
    + split; [discriminate|]. split; [discriminate|]. split; [vm_compute; reflexivity|].
      split; intros l Hl; cbn in Hl; (repeat (destruct Hl as [<-|Hl]; [split; [repeat split; vm_compute; discriminate|vm_compute; reflexivity]|]); destruct Hl).
    + cbn [c_blocks]. eexists. split; [left; reflexivity|reflexivity].
    + intros b Hb. cbn [c_blocks In] in Hb. repeat (destruct Hb as [<-|Hb]; [first [left; vm_compute; reflexivity|right; left; vm_compute; reflexivity|right; right; split; vm_compute; discriminate]|]). destruct Hb.
  - repeat split; vm_compute; first [reflexivity|discriminate].
  - do 3 eexists. split; [vm_compute; reflexivity|]. split; vm_compute; reflexivity.
Qed.

(** Finding: a short line at the start of the right column beside a full line of the left one, in columns that are higher than wide, is written
    twice - in the left column, where the row of the two becomes a table and a paragraph, and in the right one - since [Element.contains] takes a row
    of text of which more than 94.5% lie in a column to be in it: the hypothesis that rows are balanced cannot be left out. *)
Definition co_full : tblock := tb_block 65 1 50 50 298 65.
Definition co_short : tblock := tb_block 68 3 302 50 312 65.
Definition co_e : tblock := tb_block 69 4 320 600 550 615.
Definition co_page2 : rawpage := mkRaw 600 800 [co_e; co_b; co_short; co_full] [].
Theorem C90_short_refuted : exists pg secs body, wh_parse co_page2 = Ok pg /\ document_docx (DocxModel.mkSection 1 1 []) [pg] = Some (secs, body) /\
  co_cells body = [[[None; Some [68]; Some [67]]; [Some [68]; Some [69]]]]%Z.
Proof. do 3 eexists. split; [vm_compute; reflexivity|]. split; vm_compute; reflexivity. Qed.
Print Assumptions C90_short_refuted.
