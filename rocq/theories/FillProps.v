(** C83: text in the cells of a table is in its place. *)
From Verif Require GeomProof TableSpec DocxModel PageModel ShapeModel.
From Verif Require Import AssignSpec AssignProof PySort LayoutModel LayoutProps TreeSpec TreeProof TreeProof3 TreeProof5 TreeProps.
From Verif Require Import CleanSpec CleanProps ParaSpec.
From Verif Require Import TabSpec GridProps WholeSpec WholeProps PlaceProof3 PlaceProof4 PlaceProps GridProof6 TabProof10 TabProof11 TabProps FillProof FillSpec.
From Verif Require Import GridSpec CleanModel.
From Coq Require Import Lia Lqa Permutation Sorting.Sorted.
Notation length := List.length.
Open Scope Q_scope.

(** A page with a ruled table as in C76: in the Word table, in the cell over each cell of the page, there is one paragraph for each of
    its paragraphs, and Word sets them where they were: down the cell, each ends where it did, up to rounding; across the cell, from its
    left line to its right line, as in C74. None of the text is hidden, provided it was above the bottom line of its cell, with room for
    the roundings, and in the last row of a table at the end of a page for one more point. *)
Theorem C83_cells order rorder ids pm d p g r above cells below fuel tpl : (forall l, Permutation l (order l)) -> table_settings pm d g ->
  table_page (p_image_gap pm) (p_line_merging pm) p g r above cells below ->
  (forall c, clean_page order pm p = Some c -> across_middle (PageModel.working_bbox (r_width p) (r_height p) (page_margin pm p c)) g /\ sharing g r (c_blocks c)) ->
  exists pg secs body ind hs t, parse_page order rorder ids pm (S (S fuel)) p = Ok pg /\ document_docx tpl [pg] = Some (secs, body) /\
    flat_map entry body = entries above ++ None :: entries below /\ In (DTable ind hs t) body /\ table_shown g r (r_shapes p) cells t /\
    forall a b i j m n, (a < g_rows g)%nat -> (b < g_cols g)%nat -> r a b = (i, j, m, n) ->
      exists c, WordSpec.over t i j = Some (j, c) /\
        let ws := flat_map paragraphs_of (WordModel.t_body c) in
        let rows := map (fun t => length (b_lines t)) (cells i j) in
        let box := place g i j m n in let w := g_width g in
        set_in (p_center_aligned pm) (ry0 box + w / 2) (rx0 box + w / 2) (rx1 box - w / 2) (cells i j) ws /\
        forall k t' y e drift, nth_error (cells i j) k = Some t' -> bottom_of (b_lines t') y ->
          nth_error (row_ends (ry0 box + w / 2) ws rows) k = Some e -> nth_error (roundings 0 rows) k = Some drift ->
          y + drift + w / 2 + loss g (match below with [] => true | _ => false end) i m <= ry1 box -> not_clipped hs i m w (ry0 box) e.
Proof.
  intros Ho Set_ Pg Ac. destruct (page_shown order rorder ids pm Ho d p g r above below cells Set_ Pg fuel tpl Ac) as (c & pg & body & ind & hs & t & A1 & A2 & A3 & A4 & A5 & A6 & A7 & A8 & A9 & Cw & _).
  eexists pg, _, body, ind, hs, t. split; [exact A2|]. split; [exact A3|]. split; [exact A6|]. split; [exact A7|]. split; [exact A8|].
  intros a b i j m n Ha Hb Er. destruct (Cw a b i j m n Ha Hb Er) as (tc & bc & bls & Ov & Bb & Wd & (_ & La) & Ep). exists tc. split; [exact Ov|]. cbv zeta. rewrite Ep.
  pose proof Pg as (_ & _ & _ & Tx & _ & _ & Ti & _). destruct (tile_extent g r Ti a b i j m n Ha Hb Er) as (_ & Hi & Hj & Hm & Hn & Er2).
  assert (Him : (i + m <= g_rows g)%nat).
  { destruct Ti as (P & _). destruct (P i j Hi Hj) as (_ & C). rewrite Er2 in C. destruct (C (i + m - 1)%nat j) as (X & _); [cbn [TableSpec.in_region]; lia|lia]. }
  assert (St : forall t, In t (cells i j) -> stack (b_lines t)).
  { intros x Hx. destruct Tx as (Pa & _ & _ & _ & Td & _). rewrite Forall_forall in Pa. apply (stack_part (cells i j)); [apply Td|exact Hx|]. apply Pa. apply in_or_app. right. apply in_or_app. left.
    unfold in_grid. apply in_flat_map. exists i. split; [apply in_seq; lia|]. apply in_flat_map. exists j. split; [apply in_seq; lia|exact Hx]. }
  pose proof (laid_set order pm (working_box bc) (cells i j) bls Ho St La) as Sin. unfold working_box in Sin. rewrite Wd, Bb in Sin. cbn [rx0 rx1 ry0 ry1] in Sin. split; [exact Sin|].
  intros k t' y e drift Ht (ls & l & El & Ey) He Hd Room. destruct Sin as (Ln & Sin). destruct (nth_error (flat_map PlaceProof2.block_par bls) k) as [w|] eqn:Ew.
  2:{ exfalso. apply nth_error_None in Ew. rewrite Ln in Ew. assert (k < length (cells i j))%nat by (apply nth_error_Some; congruence). lia. }
  destruct (Sin k w t' Ew Ht) as (_ & _ & e' & y' & d' & He' & Hd' & (ls' & l' & El' & Ey') & K). rewrite He in He'. injection He' as <-. rewrite Hd in Hd'. injection Hd' as <-.
  rewrite El in El'. apply app_inj_tail in El'. destruct El' as (_ & <-).
  unfold not_clipped. rewrite (heights_above g _ hs A9 i m Him Hm). apply Qabs_Qle_condition in K. destruct K as (_ & K).
  assert (E0 : ry0 (place g i j m n) = round1 (gy g i)) by reflexivity. assert (E1 : ry1 (place g i j m n) = round1 (gy g (i + m))) by reflexivity. rewrite E1 in Room. rewrite E0 in *.
  set (lo := loss g _ i m) in *. clearbody lo. set (h2 := g_width g / 2) in *. clearbody h2. lra.
Qed.
Print Assumptions C83_cells.

(** The page of C76 meets the hypotheses (C76_nonvacuous); the rows of text in its cells end where they did, and are not hidden. *)
Definition fl_ends (y : Q) (ns : list nat) (c : WordModel.tc ditem) : list Q := map Qred (row_ends y (flat_map paragraphs_of (WordModel.t_body c)) ns).
Definition fl_table (x : ditem) : list (list (WordModel.tc ditem)) := match x with DTable _ _ t => t | _ => [] end.
Definition fl_heights (x : ditem) : list Z := match x with DTable _ hs _ => hs | _ => [] end.
Example C83_cells_nonvacuous : exists pg secs body, wh_parse tb_page = Ok pg /\ document_docx (DocxModel.mkSection 1 1 []) [pg] = Some (secs, body) /\
  flat_map fl_heights body = [40 * 12700; 60 * 12700]%Z /\
  map (map (fl_ends 201 [1%nat])) (firstn 1 (flat_map fl_table body)) = [[[225]]] /\
  map (map (fl_ends 241 [2%nat])) (firstn 1 (skipn 1 (flat_map fl_table body))) = [[[280]; [280]]] /\
  map (map (fl_ends 241 [1%nat; 1%nat])) (firstn 1 (skipn 1 (flat_map fl_table body))) = [[[265]; [265; 285]]] /\
  (forall hs, hs = flat_map fl_heights body -> not_clipped hs 0 1 2 200 225 /\ not_clipped hs 1 1 2 240 280 /\ not_clipped hs 1 1 2 240 285).
Proof.
  do 3 eexists. split; [vm_compute; reflexivity|]. split; [vm_compute; reflexivity|]. split; [vm_compute; reflexivity|]. split; [vm_compute; reflexivity|]. split; [vm_compute; reflexivity|]. split; [vm_compute; reflexivity|].
  intros hs ->. split; [vm_compute; discriminate|]. split; vm_compute; discriminate.
Qed.
(** Finding: the last row of a table at the end of a page is made 1 pt lower ([Blocks.parse_spacing]), and its height is exact: text just above
    the bottom line of its cell is cut off in Word. Here the last row of text ends at 299, where the line (of width 2, at 300) begins;
    the cell in Word ends at 298. *)
Definition fl_low : tblock := tb_block 75 14 310 284 500 299.
Definition fl_page : rawpage := mkRaw 600 800 [fl_low; tb_left; tb_right; wh_head; tb_title] (gr_lines tb_drawn).
Theorem C83_clipped_refuted : exists pg secs body ind hs t c e, 
  Rect.covers (place tb_grid 1 1 1 1) (b_bbox fl_low) /\ ry1 (b_bbox fl_low) + 2 / 2 <= ry1 (place tb_grid 1 1 1 1) /\
  wh_parse fl_page = Ok pg /\ document_docx (DocxModel.mkSection 1 1 []) [pg] = Some (secs, body) /\ In (DTable ind hs t) body /\ WordSpec.over t 1 1 = Some (1%nat, c) /\
  flat_map entry (WordModel.t_body c) = entries [tb_right; fl_low] /\
  nth_error (row_ends (240 + 2 / 2) (flat_map paragraphs_of (WordModel.t_body c)) [1%nat; 1%nat]) 1 = Some e /\ e == 299 /\ ~ not_clipped hs 1 1 2 240 e.
Proof.
  do 8 eexists. split; [repeat split; vm_compute; discriminate|]. split; [vm_compute; discriminate|]. split; [vm_compute; reflexivity|]. split; [vm_compute; reflexivity|].
  split; [right; left; reflexivity|]. split; [vm_compute; reflexivity|]. split; [vm_compute; reflexivity|]. split; [vm_compute; reflexivity|]. split; [vm_compute; reflexivity|]. intros H. apply H. vm_compute. reflexivity.
Qed.
Print Assumptions C83_clipped_refuted.
