(** C91: two columns of text with a heading over them and a note below them, from the raw page to the Word document. *)
From Verif Require GeomProof TextProof.
From Verif Require Import AssignSpec AssignProof PySort FlowModel FlowSpec LayoutSpec LayoutProps TreeSpec TreeProof TreeProof3 TreeProof5 TreeProps.
From Verif Require Import CleanSpec CleanProof2 CleanProps.
From Verif Require Import TabSpec GridProps WholeProps TabProps ColSpec ColProps HeadSpec HeadProof2.
From Verif Require Import CleanModel CleanSpec FlowModel FlowSpec LayoutModel WholeModel WholeSpec.
From Verif Require DocxModel PageModel ShapeModel.
From Verif Require Import CleanModel.
From Coq Require Import Lia Lqa Permutation Sorting.Sorted.
Notation length := List.length.
Open Scope Q_scope.

(** A page of two columns of paragraphs with paragraphs across the middle above and below them, in whatever order the blocks come: the page is
    parsed, and its document is one section: the paragraphs above the columns, in their order; one table of one row and two cells without borders or
    shading, the first of which shows the left column and the second the right one; the paragraphs below them. No text is lost, doubled or moved. *)
Theorem C91_headed order rorder ids pm p above left right below fuel tpl : (forall l, Permutation l (order l)) ->
  1 # 1000000 < p_line_overlap pm -> 0 < p_float_layout pm -> 0 <= p_line_merging pm ->
  headed_page (p_image_gap pm) (p_line_merging pm) p above left right below ->
  (forall c, clean_page order pm p = Some c -> let area := PageModel.working_bbox (r_width p) (r_height p) (page_margin pm p c) in
     in_halves area left right /\ across_lines area (above ++ below) /\
     forall b, In b (c_blocks c) -> (forall l, In l (b_lines b) -> In l (lines_in (left ++ right))) -> balanced area (b_bbox b)) ->
  exists c pg body ind hs t, clean_page order pm p = Some c /\ parse_page order rorder ids pm (S (S fuel)) p = Ok pg /\
    document_docx tpl [pg] = Some ([page_section p (page_margin pm p c)], body) /\ well_formed body /\ dsections [] body = [body] /\
    flat_map entry body = entries above ++ None :: entries below /\ In (DTable ind hs t) body /\ columns_shown left right t.
Proof.
  intros Ho S1 S2 S3 Pg Ar. destruct (headed_written order rorder ids pm Ho S1 S2 S3 p above left right below Pg Ar fuel tpl) as (c & pg & body & ind & hs & t & A1 & A2 & A3 & A4 & A5 & A6 & A7 & A8 & _).
  exists c, pg, body, ind, hs, t. split; [exact A1|]. split; [exact A2|]. split; [exact A3|]. split; [exact A4|]. split; [exact A5|]. split; [exact A6|]. split; [exact A7|exact A8].
Qed.
Print Assumptions C91_headed.

(** The columns of the example of C90, with a heading over them and a note of two lines below them. *)
Definition he_head (y h : Z) : tblock := tb_block 81 7 200 y 400 (y + h).
Definition he_note : tblock := mkBlk false (ly_rect 60 400 540 430) [wh_line 82 8 60 400 540 415; wh_line 83 8 60 415 500 430].
Definition he_page (y h : Z) : rawpage := mkRaw 600 800 [he_note; co_d; co_b; co_c; he_head y h; co_a] [].
Definition he_all : list tblock := [he_head 20 15; co_a; co_b; co_c; co_d; he_note].
Definition he_shown (body : list ditem) : list (option (list Z)) := tb_letters (flat_map entry body).
Example C91_nonvacuous : headed_page (p_image_gap default_params) (p_line_merging default_params) (he_page 20 15) [he_head 20 15] [co_a; co_b] [co_c; co_d] [he_note] /\
  (forall c, clean_page wh_order default_params (he_page 20 15) = Some c -> let area := PageModel.working_bbox (r_width (he_page 20 15)) (r_height (he_page 20 15)) (page_margin default_params (he_page 20 15) c) in
     in_halves area [co_a; co_b] [co_c; co_d] /\ across_lines area ([he_head 20 15] ++ [he_note]) /\ (exists b, In b (c_blocks c) /\ List.length (b_lines b) = 3%nat) /\
     forall b, In b (c_blocks c) -> (forall l, In l (b_lines b) -> In l (lines_in ([co_a; co_b] ++ [co_c; co_d]))) -> balanced area (b_bbox b)) /\
  exists pg secs body, wh_parse (he_page 20 15) = Ok pg /\ document_docx (DocxModel.mkSection 1 1 []) [pg] = Some (secs, body) /\
    he_shown body = [Some [81]; None; Some [82; 83]]%Z /\ co_cells body = [[[Some [65; 66]; Some [67]]; [Some [68]; Some [69]]]]%Z.
Proof.
  split; [|split].
  - change ([he_head 20 15] ++ ([co_a; co_b] ++ [co_c; co_d]) ++ [he_note]) with he_all. unfold headed_page. cbn [app]. fold he_all. split; [discriminate|]. split; [reflexivity|]. split; [split; reflexivity|]. split.
    { intros b H. cbn in H. repeat (destruct H as [<-|H]; [split; [split; reflexivity|]; split; [split; [repeat split; reflexivity|]; split; [eexists; split; [left; reflexivity|reflexivity]|intros l Hl; left; cbn in Hl; repeat (destruct Hl as [<-|Hl]; [reflexivity|]); destruct Hl]|intros X; discriminate X]|]). destruct H. }
    split.
    { assert (E : map block_strip (r_blocks (he_page 20 15)) = [he_note; co_d; co_b; co_c; he_head 20 15; co_a]) by (vm_compute; reflexivity). rewrite E. apply NoDup_Permutation_bis.
      - repeat (constructor; [cbn [In]; intros X; repeat (destruct X as [X|X]; [discriminate X|]); exact X|]). constructor.
      - cbn. lia.
      - intros b Hb. unfold he_all. cbn [In app] in *. tauto. }
    split.
    { rewrite Forall_forall. intros b H.
      assert (L : forall l, In l (b_lines b) -> normal_line l /\ ln_dir l = LEFT_RIGHT).
      { intros l Hl. cbn in H. repeat (destruct H as [<-|H]; [cbn in Hl; repeat (destruct Hl as [<-|Hl]; [split; [apply wh_one; lia|reflexivity]|]); destruct Hl|]). destruct H. }
      split; [cbn in H; repeat (destruct H as [<-|H]; [intros X; discriminate X|]); destruct H|]. split.
      + split; [cbn in H; repeat (destruct H as [<-|H]; [apply int_box|]); destruct H|]. split; [cbn in H; repeat (destruct H as [<-|H]; [split; reflexivity|]); destruct H|].
        intros l Hl. cbn in H. repeat (destruct H as [<-|H]; [cbn in Hl; repeat (destruct Hl as [<-|Hl]; [split; [repeat split; vm_compute; discriminate|intros s [<-|[]]; repeat split; vm_compute; discriminate]|]); destruct Hl|]). destruct H.
      + split; [cbn in H; repeat (destruct H as [<-|H]; [discriminate|]); destruct H|]. split; [|exact L].
        cbn in H. repeat (destruct H as [<-|H]; [eexists; intros l Hl; cbn in Hl; repeat (destruct Hl as [<-|Hl]; [reflexivity|]); destruct Hl|]). destruct H. }
    split; [unfold he_all; repeat constructor; intros l m Hl Hm; cbn in Hl, Hm; repeat (destruct Hl as [<-|Hl]; [repeat (destruct Hm as [<-|Hm]; [discriminate|]); destruct Hm|]); destruct Hl|].
    do 4 (split; [unfold top_down; cbn [lines_in flat_map b_lines co_a co_b co_c co_d he_head he_note tb_block app map]; repeat first [apply SSorted_nil|apply SSorted_cons|apply Forall_nil|apply Forall_cons|vm_compute; discriminate]|]).
    split; [intros l k Hl Hk; cbn in Hl, Hk; repeat (destruct Hl as [<-|Hl]; [repeat (destruct Hk as [<-|Hk]; [vm_compute; reflexivity|]); destruct Hk|]); destruct Hl|].
    do 2 (split; [intros t u [<-|[]] Hu; cbn [In] in Hu; repeat (destruct Hu as [<-|Hu]; [vm_compute; reflexivity|]); destruct Hu|]).
    intros l s Hl Hs. cbn in Hl. repeat (destruct Hl as [<-|Hl]; [destruct Hs as [<-|[]]; split; reflexivity|]). destruct Hl.
  - intros c E. vm_compute in E. injection E as <-. split; [|split; [|split]].
    + split; [discriminate|]. split; [discriminate|]. split; [vm_compute; reflexivity|].
      split; intros l Hl; cbn in Hl; (repeat (destruct Hl as [<-|Hl]; [split; [repeat split; vm_compute; discriminate|vm_compute; reflexivity]|]); destruct Hl).
    + intros l Hl. cbn in Hl. repeat (destruct Hl as [<-|Hl]; [split; vm_compute; discriminate|]). destruct Hl.
    + cbn [c_blocks]. eexists. split; [right; left; reflexivity|reflexivity].
    + intros b Hb _. cbn [c_blocks In] in Hb. repeat (destruct Hb as [<-|Hb]; [first [left; vm_compute; reflexivity|right; left; vm_compute; reflexivity|right; right; split; vm_compute; discriminate]|]). destruct Hb.
  - do 3 eexists. split; [vm_compute; reflexivity|]. split; [vm_compute; reflexivity|]. split; vm_compute; reflexivity.
Qed.

(** Finding: a line across the middle in small print that lies within 5pt of the columns - the room that is added to them - becomes the start of
    the first paragraph of the left column: the hypothesis that what is above and below the columns is more than 6pt away from them
    cannot be left out. *)
Theorem C91_near_refuted : exists pg secs body, wh_parse (he_page 45 4) = Ok pg /\ document_docx (DocxModel.mkSection 1 1 []) [pg] = Some (secs, body) /\
  he_shown body = [None; Some [82; 83]]%Z /\ co_cells body = [[[Some [81; 65; 66]; Some [67]]; [Some [68]; Some [69]]]]%Z.
Proof. do 3 eexists. split; [vm_compute; reflexivity|]. split; [vm_compute; reflexivity|]. split; vm_compute; reflexivity. Qed.
Print Assumptions C91_near_refuted.
