(** C85: pages with pictures between the paragraphs and on the text, from the raw page to the Word document. *)
From Verif Require GeomProof TextProof.
From Verif Require Import AssignSpec AssignProof PySort FlowModel FlowSpec LayoutSpec LayoutProps TreeSpec TreeProof TreeProof3 TreeProof5 TreeProps.
From Verif Require Import CleanSpec CleanProof2 CleanProps.
From Verif Require Import CleanModel CleanSpec FlowModel FlowSpec LayoutModel WholeModel WholeSpec.
From Verif Require Import WholeProof WholeProof2 WholeProof3 WholeProof4 WholeProof5 WholeProof6 WholeProof7 WholeProof8 WholeProps.
From Verif Require DocxModel PageModel ShapeModel.
From Verif Require Import TabSpec GridProps TabProof11 TabProps.
From Verif Require Import GridSpec CleanModel.
From Coq Require Import Lia Lqa Permutation Sorting.Sorted.
Notation length := List.length.
Open Scope Q_scope.

(** Pages of paragraphs and of pictures between them, from the top to the bottom, with further pictures that lie on
    the text, or on each other, by more than the ignorable gap: the conversion does not fail; the document shows, page by page,
    the paragraphs and the pictures between them, each as one paragraph, in the same order, with the same
    characters and pictures; the pictures lying on text, and only these, float, each once, those of a page after those of the page before. *)
Theorem C85_pictures order rorder ids pm fuel rs tfs tpl : (forall l, Permutation l (order l)) -> 1 # 1000000 < p_line_overlap pm -> 0 < p_float_layout pm -> 0 <= p_image_gap pm -> rs <> [] ->
  Forall2 (fun r tf => picture_page (p_image_gap pm) r (fst tf) (snd tf) /\
    forall c, clean_page order pm r = Some c -> one_column (PageModel.working_bbox (r_width r) (r_height r) (page_margin pm r c)) (fst tf)) rs tfs ->
  exists ps secs body, Forall2 (fun r p => parse_page order rorder ids pm (S fuel) r = Ok p) rs ps /\ document_docx tpl ps = Some (secs, body) /\
    Forall2 (fun r s => exists c, clean_page order pm r = Some c /\ s = page_section r (page_margin pm r c)) rs secs /\
    Forall2 (fun content tf => flat_map entry content = map (fun t => Some (line_glyphs (b_lines t))) (fst tf)) (dsections [] body) tfs /\
    (exists kss, flat_map floats_of body = concat kss /\ Forall2 (fun ks tf => exists fl, Permutation fl (snd tf) /\ Forall2 is_picture fl ks) kss tfs) /\ well_formed body.
Proof.
  intros Ho T Tf Gp Ne F.
  assert (G : exists ps, Forall2 (fun r p => parse_page order rorder ids pm (S fuel) r = Ok p) rs ps /\ Forall2 (fun r p => exists c, clean_page order pm r = Some c /\ sp_section p = page_section r (page_margin pm r c)) rs ps /\
    Forall2 (fun p tf => map block_entry (sp_blocks p) = map (fun t => Some (line_glyphs (b_lines t))) (fst tf) /\ (exists fl, Permutation fl (snd tf) /\ Forall2 is_picture fl (sp_floats p)) /\ forall b, In b (sp_blocks p) -> regular b) ps tfs).
  { clear Ne. induction F as [|r tf rs tfs (Pp & Oc) F IH]; [exists []; repeat split; constructor|]. destruct IH as (ps & A & B & C).
    destruct (page_pictured order rorder ids pm fuel r (fst tf) (snd tf) Ho T Tf Gp Pp Oc) as (c & ss & ks & fl & Cl & E & Sp & Pf & Fk). eexists (_ :: ps). split; [constructor; [exact E|exact A]|]. split; constructor; auto.
    - exists c. split; [exact Cl|reflexivity].
    - cbn [sp_blocks sp_floats]. split; [|split; [exists fl; split; assumption|]].
      + clear - Sp. revert Sp. generalize (fst tf). intros ts. revert ts. induction ss as [|s ss IH]; intros ts Sp; inversion Sp as [|u ? us ? Su Fu Eu]; subst; destruct ts as [|t ts]; try discriminate; [reflexivity|]. cbn [map] in *. injection Eu as -> ->. destruct Su as (x & -> & L & _). cbn [block_entry]. rewrite L. f_equal. apply IH, Fu.
      + clear - Sp. intros b Hb. induction Sp as [|u s us ss (x & -> & _) Sp IH]; [destruct Hb|]. destruct Hb as [<-|Hb]; [constructor|apply IH, Hb]. }
  destruct G as (ps & A & B & C).
  assert (Np : ps <> []) by (destruct A; congruence).
  destruct (document_written tpl ps Np) as (body & D & Wf & _ & _ & _).
  { intros p b Hp Hb. clear - C Hp Hb. induction C as [|p' ts ps tss (_ & _ & R) C IH]; [destruct Hp|]. destruct Hp as [->|Hp]; [apply R, Hb|apply IH, Hp]. }
  destruct (C70_blocks tpl ps _ body Np D) as (Sc & En & _ & Fl).
  exists ps, (map sp_section ps), body. split; [exact A|]. split; [exact D|]. split; [|split; [|split; [|exact Wf]]].
  - clear - B. induction B; constructor; assumption.
  - clear - En C. revert tfs C. generalize dependent (dsections [] body). intros l En. induction En as [|content p l ps E En IH]; intros tfs C; inversion C as [|? tf ? tfs' (E1 & _) C']; subst; constructor; [congruence|apply IH, C'].
  - exists (map sp_floats ps). split; [rewrite Fl; apply flat_map_concat_map|]. clear - C. induction C as [|p tf ps tfs (_ & E & _) C IH]; constructor; [exact E|exact IH].
Qed.
Print Assumptions C85_pictures.

(* ------------------------------------------------------------------ *)
(** * A concrete page *)
(** A heading, a paragraph with a picture on it, a picture beneath, a footer. *)
Lemma starts_alone_split gap a l b : (forall x, In x (a ++ b) -> ~ rx0 (ln_bbox l) == rx0 (ln_bbox x) /\ ~ rx0 (ln_bbox l) + 2 * gap == rx1 (ln_bbox x)) -> starts_alone gap (a ++ l :: b) l.
Proof. intros H rest x P Hx. apply H. apply Permutation_sym, Permutation_cons_app_inv in P. eapply Permutation_in; [exact P|exact Hx]. Qed.
Definition pc_image (k pid : nat) (a b c d : Z) : tblock := mkBlk true (ly_rect a b c d) [mkLine (ly_rect a b c d) LEFT_RIGHT [SImage k (ly_rect a b c d)] (Some pid) false].
Definition pc_over : tblock := pc_image 7 5 300 90 400 160.
Definition pc_plate : tblock := pc_image 8 6 100 220 500 400.
Definition pc_foot : tblock := mkBlk false (ly_rect 50 450 250 465) [wh_line 69 3 50 450 250 465].
Definition pc_page : rawpage := mkRaw 600 800 [pc_plate; pc_over; pc_foot; wh_body; wh_head] [].
Example C85_pictures_nonvacuous :
  (picture_page (p_image_gap default_params) pc_page [wh_head; wh_body; pc_plate; pc_foot] [pc_over] /\
   forall c, clean_page wh_order default_params pc_page = Some c -> one_column (PageModel.working_bbox (r_width pc_page) (r_height pc_page) (page_margin default_params pc_page c)) [wh_head; wh_body; pc_plate; pc_foot]) /\
  exists p secs body, wh_parse pc_page = Ok p /\ document_docx (DocxModel.mkSection 1 1 []) [p] = Some (secs, body) /\
    map (fun content => map (option_map (map (fun g => match fst g with GChar c _ => ch_c c | GImage k _ => (- Z.of_nat k)%Z end))) (flat_map entry content)) (dsections [] body) =
      [[Some [65]; Some [66; 67; 68]; Some [-8]; Some [69]]]%Z /\ flat_map floats_of body = [7%nat].
Proof.
  split; [split|].
  - assert (Bs : forall b, In b [wh_head; wh_body; pc_plate; pc_foot; pc_over] -> paragraph b /\ proper (b_bbox b) /\ to_keep (page_box pc_page) b /\ (b_img b = true -> wrapped_image b)).
    { intros b H. assert (W : b_img b = true -> wrapped_image b) by (cbn in H; intros X; repeat (destruct H as [<-|H]; [first [discriminate X|eexists _, _, _; split; reflexivity]|]); destruct H).
      split; [split; [exact W|]; split; [|split; [|split]]|split; [|split; [|exact W]]].
      - split; [cbn in H; repeat (destruct H as [<-|H]; [apply int_box|]); destruct H|]. split; [cbn in H; repeat (destruct H as [<-|H]; [split; reflexivity|]); destruct H|].
        intros l Hl. cbn in H. repeat (destruct H as [<-|H]; [cbn in Hl; repeat (destruct Hl as [<-|Hl]; [split; [repeat split; vm_compute; discriminate|intros s [<-|[]]; repeat split; vm_compute; discriminate]|]); destruct Hl|]). destruct H.
      - cbn in H; repeat (destruct H as [<-|H]; [discriminate|]); destruct H.
      - cbn in H. repeat (destruct H as [<-|H]; [eexists; intros l Hl; cbn in Hl; repeat (destruct Hl as [<-|Hl]; [reflexivity|]); destruct Hl|]). destruct H.
      - intros l Hl. cbn in H. repeat (destruct H as [<-|H]; [cbn in Hl; repeat (destruct Hl as [<-|Hl]; [split; [split; [split; reflexivity|split; [apply int_box|intros s [<-|[]]; split; [repeat split; vm_compute; discriminate|split; [apply int_box|reflexivity]]]]|reflexivity]|]); destruct Hl|]). destruct H.
      - cbn in H. repeat (destruct H as [<-|H]; [split; reflexivity|]). destruct H.
      - cbn in H. repeat (destruct H as [<-|H]; [split; [cbn; repeat split; reflexivity|split; [eexists; split; [left; reflexivity|first [exact I|reflexivity]]|intros l Hl; left; cbn in Hl; repeat (destruct Hl as [<-|Hl]; [reflexivity|]); destruct Hl]]|]). destruct H. }
    split; [reflexivity|]. split; [split; reflexivity|]. split; [intros b Hb; apply Bs; cbn in Hb |- *; tauto|].
    split; [assert (E : map block_strip (r_blocks pc_page) = [pc_plate; pc_over; pc_foot; wh_body; wh_head]) by (vm_compute; reflexivity); rewrite E|].
    { change ([wh_head; wh_body; pc_plate; pc_foot] ++ [pc_over]) with ([wh_head; wh_body] ++ pc_plate :: [pc_foot; pc_over]). apply Permutation_cons_app. cbn [app]. change [wh_head; wh_body; pc_foot; pc_over] with (rev [pc_over; pc_foot; wh_body; wh_head]). apply Permutation_rev. }
    split; [rewrite Forall_forall; intros b Hb; apply Bs; cbn in Hb |- *; tauto|].
    split; [repeat constructor; intros l m Hl Hm; cbn in Hl, Hm; repeat (destruct Hl as [<-|Hl]; [repeat (destruct Hm as [<-|Hm]; [discriminate|]); destruct Hm|]); destruct Hl|].
    split; [unfold top_down; cbn [lines_in flat_map b_lines wh_head wh_body pc_plate pc_image pc_foot app map]; repeat first [apply SSorted_nil|apply SSorted_cons|apply Forall_nil|apply Forall_cons|vm_compute; discriminate]|].
    split; [|split].
    + intros _ x Hx. cbn in Hx. repeat (destruct Hx as [<-|Hx]; [reflexivity|]). destruct Hx.
    + intros f [<-|[]]. split; [reflexivity|]. eexists _, [], (wh_line 66 2 50 100 550 115). split; [reflexivity|]. split; [apply Permutation_refl|]. split; [cbn; tauto|].
      split; [vm_compute; repeat split; reflexivity|]. left. split; [reflexivity|].
      change (lines_in ([wh_head; wh_body; pc_plate; pc_foot] ++ [pc_over])) with (lines_in [wh_head; wh_body; pc_plate; pc_foot] ++ mkLine (ly_rect 300 90 400 160) LEFT_RIGHT [SImage 7 (ly_rect 300 90 400 160)] (Some 5%nat) false :: []).
      apply starts_alone_split. intros x Hx. cbn in Hx. repeat (destruct Hx as [<-|Hx]; [split; vm_compute; discriminate|]). destruct Hx.
    + intros t l f o Ht Hi Hl [<-|[]] [<-|[]]. cbn in Ht. repeat (destruct Ht as [<-|Ht]; [first [discriminate Hi|destruct Hl as [<-|[]]; right; vm_compute; discriminate]|]). destruct Ht.
  - intros c E. vm_compute in E. injection E as <-. exists (wh_line 66 2 50 100 550 115), (wh_line 65 1 50 50 150 60), (wh_line 69 3 50 450 250 465). cbn [lines_in flat_map b_lines wh_head wh_body pc_plate pc_image pc_foot app].
    split; [right; left; reflexivity|]. split; [left; reflexivity|]. split; [do 5 right; left; reflexivity|]. split; [split; vm_compute; discriminate|]. split; [left; vm_compute; reflexivity|]. split; [left; vm_compute; reflexivity|]. split; vm_compute; discriminate.
  - do 3 eexists. split; [vm_compute; reflexivity|]. split; [vm_compute; reflexivity|]. split; vm_compute; reflexivity.
Qed.
(** The table of C76 with a picture in its last cell: it meets the hypotheses of C76_table; the picture is shown in that cell. *)
Definition pc_right2 : tblock := pc_image 9 14 310 270 500 285.
Definition pc_cells (i j : nat) : list tblock := match i, j with 0%nat, 0%nat => [tb_title] | 1%nat, 0%nat => [tb_left] | 1%nat, 1%nat => [tb_right; pc_right2] | _, _ => [] end.
Definition pc_table : rawpage := mkRaw 600 800 [tb_foot; pc_right2; tb_left; tb_right; wh_head; tb_title] (gr_lines tb_drawn).
Example C85_table_nonvacuous :
  table_settings default_params 15 tb_grid /\ table_page (p_image_gap default_params) (p_line_merging default_params) pc_table tb_grid tb_tiles [wh_head] pc_cells [tb_foot] /\
  (forall c, clean_page wh_order default_params pc_table = Some c -> across_middle (PageModel.working_bbox (r_width pc_table) (r_height pc_table) (page_margin default_params pc_table c)) tb_grid /\ sharing tb_grid tb_tiles (c_blocks c)) /\
  exists pg secs body, wh_parse pc_table = Ok pg /\ document_docx (DocxModel.mkSection 1 1 []) [pg] = Some (secs, body) /\
    tb_letters (flat_map entry body) = [Some [65]; None; Some [76]]%Z /\
    flat_map (fun x => match x with DTable ind hs t => map (map (fun c => (WordModel.t_span c, tb_letters (flat_map entry (WordModel.t_body c))))) t | _ => [] end) body =
      [[(2%nat, [Some [71]])]; [(1%nat, [Some [72; 73]]); (1%nat, [Some [74]; Some [0]])]]%Z.
Proof.
  assert (G : grid_ok 15 tb_grid).
  { unfold grid_ok, g_cols, g_rows, gx, gy, tb_grid. cbn [g_xs g_ys g_width g_left g_right g_top g_bottom List.length Nat.sub].
    split; [lia|]. split; [lia|]. split; [reflexivity|]. split; [intros j Hj; do 2 (destruct j as [|j]; [reflexivity|]); lia|]. split; [intros j Hj; do 2 (destruct j as [|j]; [reflexivity|]); lia|].
    split; [intros i Hi; do 3 (destruct i as [|i]; [cbn; lia|]); lia|]. split; [intros i Hi; do 3 (destruct i as [|i]; [cbn; lia|]); lia|]. repeat split; reflexivity. }
  split. { unfold table_settings. do 13 (split; [vm_compute; first [reflexivity|discriminate]|]). exact G. }
  assert (Gr : in_grid tb_grid pc_cells = [tb_title; tb_left; tb_right; pc_right2]) by reflexivity.
  assert (All : forall b, In b (r_blocks pc_table) <-> In b [wh_head; tb_title; tb_left; tb_right; pc_right2; tb_foot]) by (intros b; cbn [r_blocks pc_table In]; tauto).
  split.
  { split; [split; reflexivity|]. split.
    { intros b H. apply All in H. cbn in H. repeat (destruct H as [<-|H]; [split; [split; reflexivity|]; split; [split; [repeat split; reflexivity|]; split; [eexists; split; [left; reflexivity|first [exact I|reflexivity]]|intros l Hl; left; cbn in Hl; repeat (destruct Hl as [<-|Hl]; [reflexivity|]); destruct Hl]|intros X; first [discriminate X|split; [eexists _, _, _; split; reflexivity|split; [discriminate|intros l Hl; cbn in Hl; repeat (destruct Hl as [<-|Hl]; [vm_compute; discriminate|]); destruct Hl]]]]|]). destruct H. }
    rewrite Gr. split.
    { assert (E : map block_strip (r_blocks pc_table) = [tb_foot; pc_right2; tb_left; tb_right; wh_head; tb_title]) by (vm_compute; reflexivity). rewrite E. apply NoDup_Permutation_bis.
      - repeat (constructor; [cbn [In]; intros X; repeat (destruct X as [X|X]; [discriminate X|]); exact X|]). constructor.
      - cbn. lia.
      - intros b Hb. cbn [In app] in *. tauto. }
    split.
    { split; [|split; [|split; [|split; [|split; [|split; [|split]]]]]]; rewrite ?Gr.
      - rewrite Forall_forall. intros b H. cbn [app] in H.
        assert (L : forall l, In l (b_lines b) -> normal_line l /\ ln_dir l = LEFT_RIGHT).
        { intros l Hl. cbn in H. repeat (destruct H as [<-|H]; [cbn in Hl; repeat (destruct Hl as [<-|Hl]; [split; [first [apply wh_one; lia|split; [split; reflexivity|split; [apply int_box|intros s [<-|[]]; split; [repeat split; vm_compute; discriminate|split; [apply int_box|reflexivity]]]]]|reflexivity]|]); destruct Hl|]). destruct H. }
        split; [cbn in H; repeat (destruct H as [<-|H]; [intros X; first [discriminate X|eexists _, _, _; split; reflexivity]|]); destruct H|]. split.
        + split; [cbn in H; repeat (destruct H as [<-|H]; [apply int_box|]); destruct H|]. split; [cbn in H; repeat (destruct H as [<-|H]; [split; reflexivity|]); destruct H|].
          intros l Hl. cbn in H. repeat (destruct H as [<-|H]; [cbn in Hl; repeat (destruct Hl as [<-|Hl]; [split; [repeat split; vm_compute; discriminate|intros s [<-|[]]; repeat split; vm_compute; discriminate]|]); destruct Hl|]). destruct H.
        + split; [cbn in H; repeat (destruct H as [<-|H]; [discriminate|]); destruct H|]. split; [|exact L].
          cbn in H. repeat (destruct H as [<-|H]; [eexists; intros l Hl; cbn in Hl; repeat (destruct Hl as [<-|Hl]; [reflexivity|]); destruct Hl|]). destruct H.
      - repeat constructor; intros l m Hl Hm; cbn in Hl, Hm; repeat (destruct Hl as [<-|Hl]; [repeat (destruct Hm as [<-|Hm]; [discriminate|]); destruct Hm|]); destruct Hl.
      - unfold top_down. cbn [lines_in flat_map b_lines wh_head app map]. repeat first [apply SSorted_nil|apply SSorted_cons|apply Forall_nil|apply Forall_cons|vm_compute; discriminate].
      - unfold top_down. cbn [lines_in flat_map b_lines tb_foot tb_block app map]. repeat first [apply SSorted_nil|apply SSorted_cons|apply Forall_nil|apply Forall_cons|vm_compute; discriminate].
      - intros i j. do 2 (destruct i as [|i]; [do 2 (destruct j as [|j]; [unfold top_down; cbn [pc_cells lines_in flat_map b_lines tb_title tb_left tb_right pc_right2 tb_block pc_image app map]; repeat first [apply SSorted_nil|apply SSorted_cons|apply Forall_nil|apply Forall_cons|vm_compute; discriminate]|]); constructor|]). constructor.
      - intros t [<-|[]]. reflexivity.
      - intros t [<-|[]]. reflexivity.
      - intros i j t Hi Hj Ht. assert (W : exists k n, tb_tiles i j = (i, j, k, n) /\ well_inside (p_line_merging default_params) (place tb_grid i j k n) (b_bbox t)).
        { do 2 (destruct i as [|i]; [do 2 (destruct j as [|j]; [cbn [pc_cells In] in Ht; try (destruct Ht; fail); repeat (destruct Ht as [<-|Ht]; [do 2 eexists; split; [reflexivity|]; split; [repeat split; vm_compute; discriminate|split; vm_compute; reflexivity]|]); destruct Ht|]); destruct Ht|]). destruct Ht. }
        split; [exact W|]. intros l s Hl Hs. assert (H : In t [tb_title; tb_left; tb_right; pc_right2]) by (rewrite <- Gr; unfold in_grid; apply in_flat_map; exists i; split; [apply in_seq; lia|]; apply in_flat_map; exists j; split; [apply in_seq; lia|exact Ht]).
        cbn in H. repeat (destruct H as [<-|H]; [cbn in Hl; repeat (destruct Hl as [<-|Hl]; [destruct Hs as [<-|[]]; split; reflexivity|]); destruct Hl|]). destruct H. }
    split; [gr_draw tb_drawn [2; 1; 5]%nat [3; 0; 4]%nat|]. split.
    { unfold rooted, g_rows, g_cols, tb_grid. cbn [g_xs g_ys g_left g_right g_top g_bottom List.length Nat.sub]. split; [reflexivity|]. intros j Hj. exists 2%nat. split; [lia|]. cbn [Nat.eqb]. destruct (Nat.eqb j 1); lia. }
    split.
    { unfold tiles, TableSpec.partition, has_left, has_top, g_cols, g_rows, tb_grid. cbn [g_xs g_ys g_left g_right g_top g_bottom List.length Nat.sub]. split.
      - intros p q Hp Hq. do 2 (destruct p as [|p]; [do 2 (destruct q as [|q]; [cbn [tb_tiles TableSpec.in_region]; split; [lia|intros p' q' (A & B); split; [lia|]; split; [lia|];
          do 2 (destruct p' as [|p']; [do 2 (destruct q' as [|q']; [first [reflexivity|lia]|]); lia|]); lia]|]); lia|]). lia.
      - intros i j Hi Hj. do 2 (destruct i as [|i]; [do 2 (destruct j as [|j]; [cbn [tb_tiles TableSpec.reg_left TableSpec.reg_top Nat.eqb]; split; lia|]); lia|]). lia. }
    intros s Hs. cbn [r_shapes pc_table gr_lines tb_drawn List.length seq combine map In] in Hs. repeat (destruct Hs as [<-|Hs]; [split; [repeat split; vm_compute; discriminate|]; intros l Hl; cbn in Hl; repeat (destruct Hl as [<-|Hl]; [vm_compute; first [left; discriminate|right; left; discriminate|right; right; left; discriminate|right; right; right; discriminate]|]); destruct Hl|]). destruct Hs. }
  split.
  { intros c E. vm_compute in E. injection E as <-. split; [split; vm_compute; discriminate|]. intros b i j k n Hb Hi Hj Er. cbn [c_blocks] in Hb.
    do 2 (destruct i as [|i]; [do 2 (destruct j as [|j]; [cbn [tb_tiles] in Er; try discriminate Er; injection Er as <- <-; cbn [In] in Hb; repeat (destruct Hb as [<-|Hb]; [first [right; vm_compute; reflexivity|left; repeat split; vm_compute; discriminate]|]); destruct Hb|]); vm_compute in Hj; lia|]). vm_compute in Hi. lia. }
  do 3 eexists. split; [vm_compute; reflexivity|]. split; [vm_compute; reflexivity|]. split; vm_compute; reflexivity.
Qed.

