(** C86: a ruled table and the paragraphs around it are set where they were. *)
From Verif Require SetProof4 GeomProof TableSpec DocxModel PageModel ShapeModel.
From Verif Require Import AssignSpec AssignProof PySort LayoutModel LayoutProps TreeSpec TreeProof TreeProof3 TreeProof5 TreeProps.
From Verif Require Import CleanSpec CleanProps ParaSpec.
From Verif Require Import TabSpec GridProps WholeSpec WholeProps PlaceSpec PlaceProof3 PlaceProof4 PlaceProps TabProof8 TabProof9 TabProof11 TabProps FillProof FillSpec FillProps SetProof2 SetProof3 SetSpec.
From Verif Require Import GridSpec CleanModel.
From Coq Require Import Lia Lqa Permutation Sorting.Sorted.
Notation length := List.length.
Open Scope Q_scope.

(** A page with a ruled table as in C76, only text above and below it, all inside the page, the frame in the writing area, not on the text above: the page
    becomes a section of its size, whose margins keep clear of its text. Word sets the paragraphs above and below the table so that they
    end where they did, and each line of the table where it was, up to the roundings so far (with nothing above the table, up to 0.7 pt);
    and the paragraphs, all of them with rows of fixed height, across the page as in C74; left margin, indent of the table (in twentieths of a point)
    and widths of cells lead to the sides of the cells. *)
Theorem C86_page order rorder ids pm d p g r above cells below fuel tpl : (forall l, Permutation l (order l)) -> table_settings pm d g ->
  0 <= p_factor_top pm <= 1 -> 0 <= p_factor_bottom pm <= 1 ->
  table_page (p_image_gap pm) (p_line_merging pm) p g r above cells below -> text_only (above ++ below) ->
  (forall l, In l (lines_in (above ++ in_grid g cells ++ below)) -> Rect.covers (page_box p) (ln_bbox l)) ->
  (forall c, clean_page order pm p = Some c -> let area := PageModel.working_bbox (r_width p) (r_height p) (page_margin pm p c) in across_middle area g /\ sharing g r (c_blocks c) /\ frame_fits area g above) ->
  exists pg left right top bottom body ind hs t, parse_page order rorder ids pm (S (S fuel)) p = Ok pg /\
    document_docx tpl [pg] = Some ([DocxModel.mkSection (r_width p) (r_height p) [left; right; top; bottom]], body) /\
    area_holds p left right top bottom (above ++ in_grid g cells ++ below) /\
    flat_map entry body = entries above ++ None :: entries below /\ In (DTable ind hs t) body /\ set_across_page g r left ind t /\ table_shown g r (r_shapes p) cells t /\
    set_down_page g above below top body hs /\
    forall k t0 w, nth_error (above ++ below) k = Some t0 -> nth_error (flat_map paragraphs_of body) k = Some w ->
      wp_exact w = true /\ across_place (p_center_aligned pm) left (r_width p - right) (b_lines t0) w.
Proof.
  intros Ho Set_ Ft Fb Pg Txt Inp Ac.
  assert (Ac' : forall c, clean_page order pm p = Some c -> across_middle (PageModel.working_bbox (r_width p) (r_height p) (page_margin pm p c)) g /\ sharing g r (c_blocks c)) by (intros c Cl; destruct (Ac c Cl) as (X & Y & _); split; assumption).
  destruct (page_shown order rorder ids pm Ho d p g r above below cells Set_ Pg fuel tpl Ac') as (c & pg & body & ind & hs & t & A1 & A2 & A3 & A4 & A5 & A6 & A7 & A8 & A9 & _ & _ & _ & sa & before & srows & sb & _ & _ & _ & Fl & cs & Es & Tb & Ei & _).
  destruct (Ac c A1) as (_ & _ & F1 & F2 & F3). set (mg := page_margin pm p c) in *. set (area := PageModel.working_bbox (r_width p) (r_height p) mg) in *.
  pose proof (page_margins order pm Ho d p g r above below cells Set_ Pg Ft Fb Inp c A1) as Ar. cbv zeta in Ar. fold mg in Ar.
  pose proof (ptx pm p g r above below cells Pg) as Tx. pose proof (pok pm d g Set_) as Ok_. pose proof Ok_ as (_ & Gr & _). pose proof Tx as (Pa & _ & Ta & Tb' & _). rewrite Forall_forall in Pa.
  assert (St : forall x, In x (above ++ below) -> stack (b_lines x)).
  { intros x Hx. apply in_app_or in Hx. destruct Hx as [Hx|Hx]; [apply (stack_part above x Ta Hx); apply Pa, in_or_app; left; exact Hx|apply (stack_part below x Tb' Hx); apply Pa, in_or_app; right; apply in_or_app; right; exact Hx]. }
  assert (F3' : forall x, In x above -> ry1 (WholeProof2.hull (b_lines x)) + g_width g / 2 <= ry0 (frame_box g)).
  { intros x Hx. specialize (F3 x Hx). assert (Sx : stack (b_lines x)) by (apply St, in_or_app; left; exact Hx). destruct (hull_sides (b_lines x) (proj1 Sx) (stack_boxes _ Sx)) as (_ & _ & _ & _ & (l & Hl & E) & _).
    destruct (Pa x) as (_ & (_ & _ & N) & _); [apply in_or_app; left; exact Hx|]. destruct (N l Hl) as ((_ & _ & _ & C) & _). lra. }
  destruct (page_set order pm area g cs above below tpl pg _ body ind hs t Gr St Es Tb F1 F2 F3' A3 Fl A7 A9) as (Dn & Sk).
  exists pg, (PageModel.m_left mg), (PageModel.m_right mg), (PageModel.m_top mg), (PageModel.m_bottom mg), body, ind, hs, t. split; [exact A2|]. split; [exact A3|]. split; [exact Ar|]. split; [exact A6|]. split; [exact A7|].
  split; [pose proof Pg as (_ & _ & _ & _ & _ & _ & Ti & _); apply (SetProof4.lines_across g r (r_shapes p) cells t); [exact (proj1 Ti)|exact A8|]; rewrite Ei; fold area; unfold area, PageModel.working_bbox; cbn [rx0]; change (rx0 (frame_table g)) with (round1 (gx g 0)); field|]. split; [exact A8|].
  split; [apply (down_eq g above below (ry0 area)); [unfold area, PageModel.working_bbox; cbn [ry0]; lra|exact Dn]|].
  intros k t0 w Ht Hw. destruct (Sk k t0 w Ht Hw) as (q & b0 & a0 & lsp & br & Ep & ->). pose proof (nth_error_In _ _ Ht) as Hin. split.
  - cbn [ParaModel.make_paragraph wp_exact]. rewrite forallb_forall. intros l Hl. rewrite forallb_forall. intros s Hs. destruct (Txt l s) as (x & ->); [apply in_flat_map; exists t0; split; assumption|exact Hs|reflexivity].
  - change (r_width p - PageModel.m_right mg) with (rx1 area). apply (across_eq _ (rx0 area)); [unfold area, PageModel.working_bbox; cbn [rx0]; lra|].
    apply (set_across order pm area); [exact Ho|apply St, Hin| |exact Ep].
    intros l Hl. destruct (Ar l) as (X1 & X2 & _).
    { unfold TabProof5.all_texts, lines_in. rewrite !flat_map_app. apply in_app_or in Hin. apply in_or_app. destruct Hin as [Hin|Hin]; [left|right; apply in_or_app; right]; apply in_flat_map; exists t0; split; assumption. }
    unfold area, PageModel.working_bbox; cbn [rx0 rx1]; split; lra.
Qed.
Print Assumptions C86_page.

(** The page of C76 meets the hypotheses (C76_nonvacuous, and below): the heading ends at 60, the upper line of the table is at 200, the paragraph below ends at 415. *)
Example C86_page_nonvacuous :
  text_only ([wh_head] ++ [tb_foot]) /\ (forall l, In l (lines_in ([wh_head] ++ in_grid tb_grid tb_cells ++ [tb_foot])) -> Rect.covers (page_box tb_page) (ln_bbox l)) /\
  (forall c, clean_page wh_order default_params tb_page = Some c -> frame_fits (PageModel.working_bbox (r_width tb_page) (r_height tb_page) (page_margin default_params tb_page c)) tb_grid [wh_head]) /\
  exists pg body top, wh_parse tb_page = Ok pg /\ (exists l r b, document_docx (DocxModel.mkSection 1 1 []) [pg] = Some ([DocxModel.mkSection 600 800 [l; r; top; b]], body)) /\
    map Qred (set_at 2 top body [1; 1]%nat) = [60; 200; 415] /\ flat_map (fun x => match x with DTable a _ _ => [Qred a] | _ => [] end) body <> [0] /\
    exists a hs t, In (DTable a hs t) body /\ width_before t 1 1 == round1 (gx tb_grid 1) - round1 (gx tb_grid 0) /\ ~ width_before t 1 1 == 0.
Proof.
  split; [intros l s Hl Hs; cbn in Hl; repeat (destruct Hl as [<-|Hl]; [destruct Hs as [<-|[]]; eexists; reflexivity|]); destruct Hl|].
  split. { intros l Hl. cbn in Hl. repeat (destruct Hl as [<-|Hl]; [unfold Rect.covers; repeat split; vm_compute; discriminate|]). destruct Hl. }
  split. { intros c E. vm_compute in E. injection E as <-. split; [vm_compute; discriminate|]. split; [vm_compute; discriminate|]. intros t [<-|[]]. vm_compute. discriminate. }
  do 3 eexists. split; [vm_compute; reflexivity|]. split; [do 3 eexists; vm_compute; reflexivity|]. split; [vm_compute; reflexivity|]. split; [vm_compute; discriminate|].
  do 3 eexists. split; [right; left; reflexivity|]. split; [vm_compute; reflexivity|vm_compute; discriminate].
Qed.
(** Nothing above the table: an empty paragraph of the height of the space above it (here 127 pt) is made. *)
Definition st_page : rawpage := mkRaw 600 800 [tb_foot; tb_right2; tb_left; tb_right; tb_title] (gr_lines tb_drawn).
Example C86_dummy_nonvacuous : exists pg body top, wh_parse st_page = Ok pg /\ (exists l r b, document_docx (DocxModel.mkSection 1 1 []) [pg] = Some ([DocxModel.mkSection 600 800 [l; r; top; b]], body)) /\
  map Qred (set_at 2 top body [1]%nat) = [200; 415] /\ exists h t, body = DOther (DocxModel.PDummy h) [] :: t /\ h == 127.
Proof. do 3 eexists. split; [vm_compute; reflexivity|]. split; [do 3 eexists; vm_compute; reflexivity|]. split; [vm_compute; reflexivity|]. do 2 eexists. split; [reflexivity|]. vm_compute. reflexivity. Qed.
