(** C76: a page with a ruled table, from the raw page to the Word document. *)
From Verif Require GeomProof TextProof.
From Verif Require Import AssignSpec AssignProof PySort FlowModel FlowSpec LayoutSpec LayoutProps TreeSpec TreeProof TreeProof3 TreeProof5 TreeProps.
From Verif Require Import CleanSpec CleanProof2 CleanProps.
From Verif Require Import TabSpec GridProps WholeProps TabProof11.
From Verif Require Import CleanModel CleanSpec FlowModel FlowSpec LayoutModel WholeModel WholeSpec.
From Verif Require DocxModel PageModel ShapeModel.
From Verif Require Import GridSpec CleanModel.
From Coq Require Import Lia Lqa Permutation Sorting.Sorted.
Notation length := List.length.
Open Scope Q_scope.

(** A page whose strokes draw a grid - rows and columns, cells of any extent - with paragraphs in the cells, above it and below it,
    in whatever order strokes and blocks come: the page is parsed, and its document is the paragraphs above, one table, the paragraphs
    below. The table has the rows of the grid; each place of it belongs to the cell it belongs to on the page, which is as wide as it was,
    has the lines on its sides as borders with their width and colour, and the paragraphs that lie in it; nothing else. *)
Theorem C76_table order rorder ids pm d p g r above cells below fuel tpl : (forall l, Permutation l (order l)) -> table_settings pm d g ->
  table_page (p_image_gap pm) (p_line_merging pm) p g r above cells below ->
  (forall c, clean_page order pm p = Some c -> across_middle (PageModel.working_bbox (r_width p) (r_height p) (page_margin pm p c)) g /\ sharing g r (c_blocks c)) ->
  exists c pg body ind hs t, clean_page order pm p = Some c /\ parse_page order rorder ids pm (S (S fuel)) p = Ok pg /\
    document_docx tpl [pg] = Some ([page_section p (page_margin pm p c)], body) /\ well_formed body /\ dsections [] body = [body] /\
    flat_map entry body = entries above ++ None :: entries below /\ In (DTable ind hs t) body /\
    table_shown g r (r_shapes p) cells t /\ row_heights g (match below with [] => true | _ => false end) hs.
Proof.
  intros Ho Set_ Pg Ac. destruct (page_shown order rorder ids pm Ho d p g r above below cells Set_ Pg fuel tpl Ac) as (c & pg & body & ind & hs & t & A1 & A2 & A3 & A4 & A5 & A6 & A7 & A8 & A9 & _).
  exists c, pg, body, ind, hs, t. split; [exact A1|]. split; [exact A2|]. split; [exact A3|]. split; [exact A4|]. split; [exact A5|]. split; [exact A6|]. split; [exact A7|]. split; [exact A8|exact A9].
Qed.
Print Assumptions C76_table.

(** A heading, a table with a cell across its first row and two cells in the second, the second with two paragraphs, a line beneath. *)
Definition tb_grid : grid := mkGrid [50; 300; 550] [200; 240; 300] 2
  (fun _ => 0%nat) (fun _ => 2%nat) (fun j => if Nat.eqb j 1 then 1%nat else 0%nat) (fun _ => 2%nat).
Definition tb_tiles (i j : nat) : TableSpec.region := match i with O => (0, 0, 1, 2)%nat | _ => (i, j, 1, 1)%nat end.
Definition tb_drawn : list (Z * Z * Z * Z) := [(300, 240, 300, 300); (50, 240, 550, 240); (50, 200, 550, 200); (50, 200, 50, 300); (550, 200, 550, 300); (50, 300, 550, 300)]%Z.
Definition tb_block (ch : Z) (pid : nat) (a b c d : Z) : tblock := mkBlk false (ly_rect a b c d) [wh_line ch pid a b c d].
Definition tb_title : tblock := tb_block 71 11 200 210 400 225.
Definition tb_left : tblock := mkBlk false (ly_rect 60 250 290 280) [wh_line 72 12 60 250 290 265; wh_line 73 12 60 265 200 280].
Definition tb_right : tblock := tb_block 74 13 310 250 500 265.
Definition tb_right2 : tblock := tb_block 75 14 310 270 500 285.
Definition tb_foot : tblock := tb_block 76 15 50 400 250 415.
Definition tb_cells (i j : nat) : list tblock := match i, j with 0%nat, 0%nat => [tb_title] | 1%nat, 0%nat => [tb_left] | 1%nat, 1%nat => [tb_right; tb_right2] | _, _ => [] end.
Definition tb_page : rawpage := mkRaw 600 800 [tb_foot; tb_right2; tb_left; tb_right; wh_head; tb_title] (gr_lines tb_drawn).
Definition tb_letters (l : list (option (list (glyph * list TextModel.style)))) : list (option (list Z)) :=
  map (option_map (map (fun g => match fst g with GChar c _ => TextModel.ch_c c | GImage _ _ => 0%Z end))) l.
Example C76_nonvacuous :
  table_settings default_params 15 tb_grid /\ table_page (p_image_gap default_params) (p_line_merging default_params) tb_page tb_grid tb_tiles [wh_head] tb_cells [tb_foot] /\
  (forall c, clean_page wh_order default_params tb_page = Some c -> across_middle (PageModel.working_bbox (r_width tb_page) (r_height tb_page) (page_margin default_params tb_page c)) tb_grid /\ sharing tb_grid tb_tiles (c_blocks c)) /\
  exists pg secs body, wh_parse tb_page = Ok pg /\ document_docx (DocxModel.mkSection 1 1 []) [pg] = Some (secs, body) /\
    tb_letters (flat_map entry body) = [Some [65]; None; Some [76]]%Z /\
    flat_map (fun x => match x with DTable ind hs t => map (map (fun c => (WordModel.t_span c, tb_letters (flat_map entry (WordModel.t_body c))))) t | _ => [] end) body =
      [[(2%nat, [Some [71]])]; [(1%nat, [Some [72; 73]]); (1%nat, [Some [74]; Some [75]])]]%Z.
Proof.
  assert (G : grid_ok 15 tb_grid).
  { unfold grid_ok, g_cols, g_rows, gx, gy, tb_grid. cbn [g_xs g_ys g_width g_left g_right g_top g_bottom List.length Nat.sub].
    split; [lia|]. split; [lia|]. split; [reflexivity|]. split; [intros j Hj; do 2 (destruct j as [|j]; [reflexivity|]); lia|]. split; [intros j Hj; do 2 (destruct j as [|j]; [reflexivity|]); lia|].
    split; [intros i Hi; do 3 (destruct i as [|i]; [cbn; lia|]); lia|]. split; [intros i Hi; do 3 (destruct i as [|i]; [cbn; lia|]); lia|]. repeat split; reflexivity. }
  split. { unfold table_settings. do 13 (split; [vm_compute; first [reflexivity|discriminate]|]). exact G. }
  assert (Gr : in_grid tb_grid tb_cells = [tb_title; tb_left; tb_right; tb_right2]) by reflexivity.
  assert (All : forall b, In b (r_blocks tb_page) <-> In b [wh_head; tb_title; tb_left; tb_right; tb_right2; tb_foot]) by (intros b; cbn [r_blocks tb_page In]; tauto).
  split.
  { split; [split; reflexivity|]. split.
    { intros b H. apply All in H. cbn in H. repeat (destruct H as [<-|H]; [split; [split; reflexivity|]; split; [split; [repeat split; reflexivity|]; split; [eexists; split; [left; reflexivity|reflexivity]|intros l Hl; left; cbn in Hl; repeat (destruct Hl as [<-|Hl]; [reflexivity|]); destruct Hl]|intros X; discriminate X]|]). destruct H. }
    rewrite Gr. split.
    { assert (E : map block_strip (r_blocks tb_page) = [tb_foot; tb_right2; tb_left; tb_right; wh_head; tb_title]) by (vm_compute; reflexivity). rewrite E. apply NoDup_Permutation_bis.
      - repeat (constructor; [cbn [In]; intros X; repeat (destruct X as [X|X]; [discriminate X|]); exact X|]). constructor.
      - cbn. lia.
      - intros b Hb. cbn [In app] in *. tauto. }
    split.
    { split; [|split; [|split; [|split; [|split; [|split; [|split]]]]]]; rewrite ?Gr.
      - rewrite Forall_forall. intros b H. cbn [app] in H.
        assert (L : forall l, In l (b_lines b) -> normal_line l /\ ln_dir l = LEFT_RIGHT).
        { intros l Hl. cbn in H. repeat (destruct H as [<-|H]; [cbn in Hl; repeat (destruct Hl as [<-|Hl]; [split; [apply wh_one; lia|reflexivity]|]); destruct Hl|]). destruct H. }
        split; [cbn in H; repeat (destruct H as [<-|H]; [intros X; discriminate X|]); destruct H|]. split.
        + split; [cbn in H; repeat (destruct H as [<-|H]; [apply int_box|]); destruct H|]. split; [cbn in H; repeat (destruct H as [<-|H]; [split; reflexivity|]); destruct H|].
          intros l Hl. cbn in H. repeat (destruct H as [<-|H]; [cbn in Hl; repeat (destruct Hl as [<-|Hl]; [split; [repeat split; vm_compute; discriminate|intros s [<-|[]]; repeat split; vm_compute; discriminate]|]); destruct Hl|]). destruct H.
        + split; [cbn in H; repeat (destruct H as [<-|H]; [discriminate|]); destruct H|]. split; [|exact L].
          cbn in H. repeat (destruct H as [<-|H]; [eexists; intros l Hl; cbn in Hl; repeat (destruct Hl as [<-|Hl]; [reflexivity|]); destruct Hl|]). destruct H.
      - repeat constructor; intros l m Hl Hm; cbn in Hl, Hm; repeat (destruct Hl as [<-|Hl]; [repeat (destruct Hm as [<-|Hm]; [discriminate|]); destruct Hm|]); destruct Hl.
      - unfold top_down. cbn [lines_in flat_map b_lines wh_head app map]. repeat first [apply SSorted_nil|apply SSorted_cons|apply Forall_nil|apply Forall_cons|vm_compute; discriminate].
      - unfold top_down. cbn [lines_in flat_map b_lines tb_foot tb_block app map]. repeat first [apply SSorted_nil|apply SSorted_cons|apply Forall_nil|apply Forall_cons|vm_compute; discriminate].
      - intros i j. do 2 (destruct i as [|i]; [do 2 (destruct j as [|j]; [unfold top_down; cbn [tb_cells lines_in flat_map b_lines tb_title tb_left tb_right tb_right2 tb_block app map]; repeat first [apply SSorted_nil|apply SSorted_cons|apply Forall_nil|apply Forall_cons|vm_compute; discriminate]|]); constructor|]). constructor.
      - intros t [<-|[]]. reflexivity.
      - intros t [<-|[]]. reflexivity.
      - intros i j t Hi Hj Ht. assert (W : exists k n, tb_tiles i j = (i, j, k, n) /\ well_inside (p_line_merging default_params) (place tb_grid i j k n) (b_bbox t)).
        { do 2 (destruct i as [|i]; [do 2 (destruct j as [|j]; [cbn [tb_cells In] in Ht; try (destruct Ht; fail); repeat (destruct Ht as [<-|Ht]; [do 2 eexists; split; [reflexivity|]; split; [repeat split; vm_compute; discriminate|split; vm_compute; reflexivity]|]); destruct Ht|]); destruct Ht|]). destruct Ht. }
        split; [exact W|]. intros l s Hl Hs. assert (H : In t [tb_title; tb_left; tb_right; tb_right2]) by (rewrite <- Gr; unfold in_grid; apply in_flat_map; exists i; split; [apply in_seq; lia|]; apply in_flat_map; exists j; split; [apply in_seq; lia|exact Ht]).
        cbn in H. repeat (destruct H as [<-|H]; [cbn in Hl; repeat (destruct Hl as [<-|Hl]; [destruct Hs as [<-|[]]; split; reflexivity|]); destruct Hl|]). destruct H. }
    split; [gr_draw tb_drawn [2; 1; 5]%nat [3; 0; 4]%nat|]. split.
    { unfold rooted, g_rows, g_cols, tb_grid. cbn [g_xs g_ys g_left g_right g_top g_bottom List.length Nat.sub]. split; [reflexivity|]. intros j Hj. exists 2%nat. split; [lia|]. cbn [Nat.eqb]. destruct (Nat.eqb j 1); lia. }
    split.
    { unfold tiles, TableSpec.partition, has_left, has_top, g_cols, g_rows, tb_grid. cbn [g_xs g_ys g_left g_right g_top g_bottom List.length Nat.sub]. split.
      - intros p q Hp Hq. do 2 (destruct p as [|p]; [do 2 (destruct q as [|q]; [cbn [tb_tiles TableSpec.in_region]; split; [lia|intros p' q' (A & B); split; [lia|]; split; [lia|];
          do 2 (destruct p' as [|p']; [do 2 (destruct q' as [|q']; [first [reflexivity|lia]|]); lia|]); lia]|]); lia|]). lia.
      - intros i j Hi Hj. do 2 (destruct i as [|i]; [do 2 (destruct j as [|j]; [cbn [tb_tiles TableSpec.reg_left TableSpec.reg_top Nat.eqb]; split; lia|]); lia|]). lia. }
    intros s Hs. cbn [r_shapes tb_page gr_lines tb_drawn List.length seq combine map In] in Hs. repeat (destruct Hs as [<-|Hs]; [split; [repeat split; vm_compute; discriminate|]; intros l Hl; cbn in Hl; repeat (destruct Hl as [<-|Hl]; [vm_compute; first [left; discriminate|right; left; discriminate|right; right; left; discriminate|right; right; right; discriminate]|]); destruct Hl|]). destruct Hs. }
  split.
  { intros c E. vm_compute in E. injection E as <-. split; [split; vm_compute; discriminate|]. intros b i j k n Hb Hi Hj Er. cbn [c_blocks] in Hb.
    do 2 (destruct i as [|i]; [do 2 (destruct j as [|j]; [cbn [tb_tiles] in Er; try discriminate Er; injection Er as <- <-; cbn [In] in Hb; repeat (destruct Hb as [<-|Hb]; [first [right; vm_compute; reflexivity|left; repeat split; vm_compute; discriminate]|]); destruct Hb|]); vm_compute in Hj; lia|]). vm_compute in Hi. lia. }
  do 3 eexists. split; [vm_compute; reflexivity|]. split; [vm_compute; reflexivity|]. split; vm_compute; reflexivity.
Qed.

(** Finding: a span of no width - a mark printed over the letter before it - in a line that goes through several cells is written into
    each of these cells ([Rect.contains] of PyMuPDF before 1.19 holds for any empty box): the character 99 is there twice. *)
Definition tb_span (ch a b c d : Z) : TextModel.span := TextModel.SText (TextModel.mkTspan [TextModel.mkChar ch (ly_rect a b c d)] (ly_rect a b c d) [] (TextModel.mkAttrs 0 10 0 0)).
Definition tb_row : tblock := mkBlk false (ly_rect 60 250 500 265) [mkLine (ly_rect 60 250 500 265) LEFT_RIGHT [tb_span 72 60 250 290 265; tb_span 99 290 250 290 265; tb_span 74 310 250 500 265] (Some 12%nat) false].
Theorem C76_widthless_refuted : exists pg secs body, wh_parse (mkRaw 600 800 [tb_foot; tb_right2; tb_row; wh_head; tb_title] (gr_lines tb_drawn)) = Ok pg /\
  document_docx (DocxModel.mkSection 1 1 []) [pg] = Some (secs, body) /\
  flat_map (fun x => match x with DTable ind hs t => map (map (fun c => (WordModel.t_span c, tb_letters (flat_map entry (WordModel.t_body c))))) t | _ => [] end) body =
    [[(2%nat, [Some [71]])]; [(1%nat, [Some [72; 99]]); (1%nat, [Some [99; 74]; Some [75]])]]%Z.
Proof. do 3 eexists. split; [vm_compute; reflexivity|]. split; vm_compute; reflexivity. Qed.
Print Assumptions C76_widthless_refuted.
