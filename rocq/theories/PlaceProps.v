(** C74: where Word sets the paragraphs of a page of paragraphs. *)
From Verif Require GeomProof PageModel PageSpec PageProps DocxModel.
From Verif Require Import AssignSpec AssignProof PySort LayoutModel TreeSpec TreeProof TreeProof3 TreeProof5 TreeProps LayoutProps CleanProps.
From Verif Require Import ParaSpec SpacingSpec.
From Verif Require Import WholeSpec WholeProof WholeProof2 WholeProof4 WholeProof6 WholeProof8 WholeProps PlaceSpec PlaceProof2 PlaceProof3 PlaceProof4.
From Verif Require Import CleanModel.
From Coq Require Import Lia Lqa Permutation Sorting.Sorted.
Notation length := List.length.
Open Scope Q_scope.

Lemma across_eq tc l l' r ls w : l == l' -> across_place tc l r ls w -> across_place tc l' r ls w.
Proof.
  intros E (A & B & C & D). split; [|split; [exact B|split; [|exact D]]].
  - intros H. destruct (A H) as (x & L & K). exists x. split; [exact L|]. rewrite <- E. exact K.
  - intros H. destruct (C H) as (K1 & K2). split; [exact K1|]. intros x Ex. specialize (K2 x Ex). rewrite <- E. exact K2.
Qed.
Lemma ends_eq ws : forall ns y y' k e, y == y' -> nth_error (row_ends y ws ns) k = Some e -> exists e', nth_error (row_ends y' ws ns) k = Some e' /\ e' == e.
Proof.
  induction ws as [|w ws IH]; intros ns y y' k e Ey E; [destruct k; discriminate E|]. destruct ns as [|n ns]; [destruct k; discriminate E|]. cbn [row_ends] in E |- *. destruct k as [|k].
  - cbn [nth_error] in E |- *. injection E as <-. eexists. split; [reflexivity|]. rewrite Ey. reflexivity.
  - cbn [nth_error] in E |- *. apply (IH ns _ _ k e) with (2 := E). rewrite Ey. reflexivity.
Qed.
(** One page. *)
Lemma page_placed order rorder ids pm fuel r ts : (forall l, Permutation l (order l)) -> 1 # 1000000 < p_line_overlap pm -> 0 < p_float_layout pm ->
  0 <= p_factor_top pm <= 1 -> 0 <= p_factor_bottom pm <= 1 ->
  paragraph_page r ts -> text_only ts -> (forall l, In l (lines_in ts) -> Rect.covers (page_box r) (ln_bbox l)) ->
  (forall c, clean_page order pm r = Some c -> one_column (PageModel.working_bbox (r_width r) (r_height r) (page_margin pm r c)) ts) ->
  exists p, parse_page order rorder ids pm (S fuel) r = Ok p /\ (forall b, In b (sp_blocks p) -> regular b) /\
    forall content, flat_map paragraphs_of content = flat_map block_par (sp_blocks p) -> placed (p_center_aligned pm) r ts (sp_section p) content.
Proof.
  intros Ho T Tf Ft Fb Pp Txt Inp Oc. destruct (page_laid order rorder ids pm fuel r ts Ho T Tf Pp Oc) as (c & ss & Cl & E & Es & F & Sh & Pl & Bo).
  exists (mkSPage (page_section r (page_margin pm r c)) ss []). split; [exact E|]. cbn [sp_blocks sp_section].
  split; [clear - F; intros b Hb; induction F as [|u s us ss (x & -> & _) F IH]; [destruct Hb|]; destruct Hb as [<-|Hb]; [constructor|apply IH, Hb]|].
  intros content Ec. set (m := page_margin pm r c) in *. set (area := PageModel.working_bbox (r_width r) (r_height r) m) in *.
  pose proof Pp as (_ & _ & _ & _ & Pa & _ & Td). rewrite Forall_forall in Pa.
  apply top_down_lines in Td.
  assert (FL : forall l, In l (lines_in ts) -> flat_line l) by (intros l Hl; apply in_flat_map in Hl; destruct Hl as (t & Ht & Hl); destruct (Pa t Ht) as (_ & _ & _ & _ & H); exact (H l Hl)).
  assert (LB : forall l, In l (lines_in ts) -> box (ln_bbox l)) by (intros l Hl; destruct (FL l Hl) as ((P & D & _) & _); split; assumption).
  assert (St : forall t, In t ts -> stack (b_lines t)).
  { intros t Ht. destruct (Pa t Ht) as (_ & _ & Ne & _ & H). split; [exact Ne|]. split; [exact H|].
    clear - Td Ht. induction ts as [|x ts IH]; [destruct Ht|]. unfold lines_in in Td. cbn [flat_map] in Td.
    destruct Ht as [->|Ht].
    - clear IH. induction (b_lines t) as [|l ls IH]; [constructor|]. cbn [app] in Td. inversion Td as [|? ? T1 T2]; subst. constructor; [apply IH, T1|]. rewrite Forall_forall in *. intros y Hy. apply T2, in_or_app. left. exact Hy.
    - apply IH; [|exact Ht]. clear IH Ht. induction (b_lines x) as [|l ls IH]; [exact Td|]. cbn [app] in Td. inversion Td; subst. apply IH. assumption. }
  (* margins *)
  assert (Ar : forall l, In l (lines_in ts) -> PageModel.m_left m <= rx0 (ln_bbox l) /\ PageModel.m_right m <= r_width r - rx1 (ln_bbox l) /\ PageModel.m_top m <= ry0 (ln_bbox l) /\ PageModel.m_bottom m <= r_height r - ry1 (ln_bbox l) + (1 # 20)).
  { intros l Hl. assert (Hc : In l (lines_in (c_blocks c))) by (eapply Permutation_in; [apply Permutation_sym, Pl|exact Hl]). apply in_flat_map in Hc. destruct Hc as (b & Hb & Hlb).
    assert (Hull : forall b, In b (c_blocks c) -> box (b_bbox b) /\ (forall l, In l (b_lines b) -> rx0 (b_bbox b) <= rx0 (ln_bbox l) /\ rx1 (ln_bbox l) <= rx1 (b_bbox b) /\ ry0 (b_bbox b) <= ry0 (ln_bbox l) /\ ry1 (ln_bbox l) <= ry1 (b_bbox b)) /\ Rect.covers (page_box r) (b_bbox b)).
    { intros b' Hb'. destruct (Bo b' Hb') as (Bx & Ne & ms & Eb & Im). assert (Hin : forall x, In x ms -> In x (lines_in ts)) by (intros x Hx; eapply Permutation_in; [exact Pl|]; apply in_flat_map; exists b'; split; [exact Hb'|apply Im, Hx]).
      assert (Nm : ms <> []) by (intros ->; destruct (b_lines b') as [|x xs]; [congruence|]; destruct (proj2 (Im x) (or_introl eq_refl))).
      destruct (hull_sides ms Nm (fun x Hx => LB x (Hin x Hx))) as (_ & (L1 & L2) & (R1 & R2) & (U1 & U2) & (D1 & D2)). rewrite Eb in *. split; [exact Bx|]. split.
      - intros x Hx. apply Im in Hx. specialize (L2 x Hx). specialize (R2 x Hx). specialize (U2 x Hx). specialize (D2 x Hx). split; [exact L2|split; [exact R2|split; [exact U2|exact D2]]].
      - destruct L1 as (x1 & H1 & E1), R1 as (x2 & H2 & E2), U1 as (x3 & H3 & E3), D1 as (x4 & H4 & E4).
        destruct (Inp x1 (Hin x1 H1)) as (A1 & _ & _ & _), (Inp x2 (Hin x2 H2)) as (_ & _ & A2 & _), (Inp x3 (Hin x3 H3)) as (_ & A3 & _ & _), (Inp x4 (Hin x4 H4)) as (_ & _ & _ & A4).
        unfold Rect.covers. split; [lra|]. split; [lra|]. split; lra. }
    destruct (Hull b Hb) as ((Pb & Db) & Cb & _). destruct (Cb l Hlb) as (K1 & K2 & K3 & K4).
    assert (Mg : m = PageModel.cal_margin (map b_elem (c_blocks c)) [] (r_width r) (r_height r) (p_factor_top pm) (p_factor_bottom pm)) by (unfold m, page_margin; rewrite Sh; reflexivity).
    pose proof (PageProps.C35_content_is_inside (map b_elem (c_blocks c)) [] (r_width r) (r_height r) (p_factor_top pm) (p_factor_bottom pm) (b_elem b) Ft Fb) as Q.
    destruct Q as (Q1 & Q2 & Q3 & Q4).
    - intros x Hx. rewrite app_nil_r in Hx. apply in_map_iff in Hx. destruct Hx as (y & <- & Hy). destruct (Hull y Hy) as ((P & D) & _). split; [apply proper_valid; exact P|exact D].
    - intros x Hx _. rewrite app_nil_r in Hx. apply in_map_iff in Hx. destruct Hx as (y & <- & Hy). apply (Hull y Hy).
    - rewrite app_nil_r. apply in_map, Hb.
    - exact Pb.
    - rewrite <- Mg in Q1, Q2, Q3, Q4. cbn [e_bbox b_elem] in Q1, Q2, Q3, Q4. split; [lra|]. split; [lra|]. split; lra. }
  destruct (set_down order pm area ts ss St Es) as (Ln & Dn). destruct (spaced_as order pm area (map para_block ts) ss Es) as (vs & _ & Sa).
  exists (PageModel.m_left m), (PageModel.m_right m), (PageModel.m_top m), (PageModel.m_bottom m). split; [reflexivity|]. split.
  { intros l Hl. destruct (Ar l Hl) as (A1 & A2 & A3 & A4). split; [exact A1|]. split; [lra|]. split; [exact A3|lra]. }
  cbv zeta. rewrite Ec. split; [exact Ln|]. intros k w t Hw Ht. assert (Hin : In t ts) by (eapply nth_error_In, Ht).
  assert (Sk : exists p before after lsp br, parse_horizontal order (hull (b_lines t)) area (text_thresholds pm) (b_lines t) fresh_para = Some p /\ w = make_paragraph (hull (b_lines t)) p before after lsp (b_lines t) br).
  { clear - Sa Hw Ht. revert k ts vs Ht Sa Hw. induction ss as [|s ss IH]; intros k ts vs Ht Sa Hw; inversion Sa as [|u v p br us vs' ss' Ep S' Eu]; subst; [destruct k; discriminate Hw|]. destruct ts as [|x ts]; [discriminate Eu|]. cbn [map] in Eu. injection Eu as Eu1 Eu2. subst u us.
      destruct k as [|k]; [|apply (IH k ts vs' Ht S' Hw)]. injection Ht as ->. cbn [flat_map block_par app nth_error] in Hw. injection Hw as <-. exists p, (v_before v), (v_after v), (v_line v), br. split; [exact Ep|reflexivity]. }
  split. { destruct Sk as (p & before & after & lsp & br & Ep & ->). cbn [make_paragraph wp_exact]. rewrite forallb_forall. intros l Hl. rewrite forallb_forall. intros s Hs. destruct (Txt l s) as (x & ->); [apply in_flat_map; exists t; split; assumption|exact Hs|reflexivity]. }
  split.
  - destruct Sk as (p & before & after & lsp & br & Ep & ->).
    change (r_width r - PageModel.m_right m) with (rx1 area). apply (across_eq _ (rx0 area)); [unfold area, PageModel.working_bbox; cbn [rx0]; lra|].
    apply (set_across order pm area); [exact Ho|apply St, Hin| |exact Ep].
    intros l Hl. assert (Hl' : In l (lines_in ts)) by (apply in_flat_map; exists t; split; assumption). destruct (Ar l Hl') as (A1 & A2 & _). unfold area, PageModel.working_bbox; cbn [rx0 rx1]; split; lra.
  - destruct (Dn k t Ht) as (e & d & He & Hd & K). assert (Et : ry0 area == PageModel.m_top m) by (unfold area, PageModel.working_bbox; cbn [ry0]; lra). destruct (ends_eq _ _ (ry0 area) (PageModel.m_top m) k e Et He) as (e' & He' & Ee). exists e', (ry1 (hull (b_lines t))), d. split; [exact He'|]. split; [exact Hd|]. split; [|rewrite Ee; exact K].
    destruct (St t Hin) as (N & F' & B). apply bottom_hull; assumption.
Qed.

(** Pages of paragraphs (C73) without pictures, the text inside the page: each page becomes a section of its size, whose margins keep clear of its text;
    Word sets the rows of each paragraph so that they end where they did on the page, up to the rounding of the spaces so far; a paragraph
    aligned to the left starts at its left edge, one aligned to the right ends at its right edge, a justified one both,
    a single line that is centred stays in its place up to the threshold. *)
Theorem C74_placed order rorder ids pm fuel rs tss tpl : (forall l, Permutation l (order l)) -> 1 # 1000000 < p_line_overlap pm -> 0 < p_float_layout pm ->
  0 <= p_factor_top pm <= 1 -> 0 <= p_factor_bottom pm <= 1 -> rs <> [] ->
  Forall2 (fun r ts => paragraph_page r ts /\ text_only ts /\ (forall l, In l (lines_in ts) -> Rect.covers (page_box r) (ln_bbox l)) /\
    forall c, clean_page order pm r = Some c -> one_column (PageModel.working_bbox (r_width r) (r_height r) (page_margin pm r c)) ts) rs tss ->
  exists ps secs body, Forall2 (fun r p => parse_page order rorder ids pm (S fuel) r = Ok p) rs ps /\ document_docx tpl ps = Some (secs, body) /\
    forall k r ts, nth_error rs k = Some r -> nth_error tss k = Some ts ->
      exists sec content, nth_error secs k = Some sec /\ nth_error (dsections [] body) k = Some content /\ placed (p_center_aligned pm) r ts sec content.
Proof.
  intros Ho T Tf Ft Fb Ne F.
  assert (G : exists ps, Forall2 (fun r p => parse_page order rorder ids pm (S fuel) r = Ok p) rs ps /\ (forall p b, In p ps -> In b (sp_blocks p) -> regular b) /\
    forall k r ts, nth_error rs k = Some r -> nth_error tss k = Some ts -> exists p, nth_error ps k = Some p /\
      forall content, flat_map paragraphs_of content = flat_map block_par (sp_blocks p) -> placed (p_center_aligned pm) r ts (sp_section p) content).
  { clear Ne. induction F as [|r ts rs tss (Pp & Tx & Ip & Oc) F IH].
    - exists []. split; [constructor|]. split; [intros p b []|]. intros k r ts H. destruct k; discriminate H.
    - destruct IH as (ps & A & B & C). destruct (page_placed order rorder ids pm fuel r ts Ho T Tf Ft Fb Pp Tx Ip Oc) as (p & E & R & Pl). exists (p :: ps). split; [constructor; assumption|]. split; [intros q b [<-|Hq]; [apply R|apply B, Hq]|].
      intros [|k] r' ts' Hr Ht; cbn [nth_error] in *; [injection Hr as <-; injection Ht as <-; exists p; split; [reflexivity|exact Pl]|apply (C k r' ts' Hr Ht)]. }
  destruct G as (ps & A & B & C). assert (Np : ps <> []) by (destruct A; congruence).
  destruct (document_written tpl ps Np B) as (body & D & _). destruct (document_pars tpl ps _ body Np D) as (Sc & Pa).
  exists ps, (map sp_section ps), body. split; [exact A|]. split; [exact D|]. intros k r ts Hr Ht. destruct (C k r ts Hr Ht) as (p & Hp & Pl). exists (sp_section p).
  assert (Hc : exists content, nth_error (dsections [] body) k = Some content /\ flat_map paragraphs_of content = flat_map block_par (sp_blocks p)).
  { clear - Pa Hp. revert k Hp. induction Pa as [|content q l qs E Pa IH]; intros [|k] Hp; try discriminate Hp; cbn [nth_error] in *; [injection Hp as ->; exists content; split; [reflexivity|exact E]|apply IH, Hp]. }
  destruct Hc as (content & Hc & Ec). exists content. split; [rewrite nth_error_map, Hp; reflexivity|]. split; [exact Hc|apply Pl, Ec].
Qed.
Print Assumptions C74_placed.

(** Any page that is parsed: the margins of its section keep clear of all blocks and drawings left by the clean-up, if
    they are inside the page. *)
Theorem C74_margins order rorder ids pm fuel r p : 0 <= p_factor_top pm <= 1 -> 0 <= p_factor_bottom pm <= 1 -> parse_page order rorder ids pm fuel r = Ok p ->
  exists c left right top bottom, clean_page order pm r = Some c /\
    sp_section p = DocxModel.mkSection (r_width r) (r_height r) [left; right; top; bottom] /\
    let content := map b_bbox (c_blocks c) ++ map sh_bbox (c_shapes c) in
    ((forall x, In x content -> GeomSpec.normal_box x /\ (proper x -> Rect.covers (page_box r) x)) ->
     forall x, In x content -> proper x -> left <= rx0 x /\ rx1 x <= r_width r - right /\ top <= ry0 x /\ ry1 x <= r_height r - bottom + (1 # 20)).
Proof.
  intros Ft Fb E. unfold parse_page in E. destruct (clean_page order pm r) as [c|]; [|discriminate E]. cbv zeta in E.
  match type of E with bind ?x _ = _ => destruct x as [[w' bs]| |] end; [|discriminate E|discriminate E]. cbn [bind snd] in E.
  match type of E with match ?x with _ => _ end = _ => destruct x as [sb|] end; [|discriminate E]. injection E as <-. cbn [sp_section]. unfold page_section.
  do 5 eexists. split; [reflexivity|]. split; [reflexivity|]. cbv zeta. intros H x Hx Px. unfold page_margin.
  set (bl := map b_elem (c_blocks c)). set (sh := map (fun s => mkElem 0 (sh_bbox s) LEFT_RIGHT) (c_shapes c)).
  assert (Eq : map e_bbox (bl ++ sh) = map b_bbox (c_blocks c) ++ map sh_bbox (c_shapes c)) by (unfold bl, sh; rewrite map_app, !map_map; reflexivity). rewrite <- Eq in H, Hx.
  apply in_map_iff in Hx. destruct Hx as (e & <- & He).
  destruct (PageProps.C35_content_is_inside bl sh (r_width r) (r_height r) (p_factor_top pm) (p_factor_bottom pm) e Ft Fb) as (Q1 & Q2 & Q3 & Q4);
    [intros y Hy; apply H, in_map, Hy|intros y Hy Py; apply H; [apply in_map, Hy|exact Py]|exact He|exact Px|].
  split; [exact Q1|]. split; [lra|]. split; [exact Q3|lra].
Qed.
Print Assumptions C74_margins.
Lemma decimal_check x : Qeq_bool x (inject_Z (Qnum (Qred (x * 10))) / 10) = true -> decimal 10 x.
Proof. intros E. exists (Qnum (Qred (x * 10))). apply Qeq_bool_eq. exact E. Qed.
Example C74_margins_nonvacuous : exists p c, wh_parse wh_page3 = Ok p /\ clean_page wh_order default_params wh_page3 = Some c /\ (length (c_shapes c) = 4)%nat /\
  (forall x, In x (map b_bbox (c_blocks c) ++ map sh_bbox (c_shapes c)) -> GeomSpec.normal_box x /\ (proper x -> Rect.covers (page_box wh_page3) x)).
Proof.
  do 2 eexists. split; [vm_compute; reflexivity|]. split; [vm_compute; reflexivity|]. split; [reflexivity|]. intros x Hx. vm_compute in Hx.
  repeat (destruct Hx as [<-|Hx]; [split; [split; [split; vm_compute; discriminate|]|intros _; unfold Rect.covers; repeat split; vm_compute; discriminate]; repeat split; apply decimal_check; vm_compute; reflexivity|]). destruct Hx.
Qed.
(** The pages of C73: the text is inside them; the numbers Word gets for the first one. *)
Example C74_placed_nonvacuous :
  text_only [wh_head; wh_body; wh_foot] /\
  (forall l, In l (lines_in [wh_head; wh_body; wh_foot]) -> Rect.covers (page_box wh_page1) (ln_bbox l)) /\
  exists p secs body, wh_parse wh_page1 = Ok p /\ document_docx (DocxModel.mkSection 1 1 []) [p] = Some (secs, body) /\
    map (fun w => (wp_align w, Qred (wp_before w), Qred (wp_line w), Qred (word_first_line w))) (flat_map paragraphs_of body) =
      [(A_LEFT, 25, 10, 0); (A_JUSTIFY, 40, 15, 0); (A_LEFT, 55, 15, 0)] /\
    map Qred (row_ends 25 (flat_map paragraphs_of body) [1; 3; 1]%nat) = [60; 145; 215].
Proof.
  split; [intros l s Hl Hs; cbn in Hl; repeat (destruct Hl as [<-|Hl]; [destruct Hs as [<-|[]]; eexists; reflexivity|]); destruct Hl|].
  split.
  - intros l Hl. cbn in Hl. repeat (destruct Hl as [<-|Hl]; [unfold Rect.covers; repeat split; vm_compute; discriminate|]). destruct Hl.
  - do 3 eexists. split; [vm_compute; reflexivity|]. split; [vm_compute; reflexivity|]. split; vm_compute; reflexivity.
Qed.
