(** C75: links, underlines, strikes and highlights over the text of a page of paragraphs. *)
From Verif Require GeomProof TextProof TableSpec ShapeProof ShapeProps ParaProof PlaceProps.
From Verif Require Import AssignSpec AssignProof PySort FlowModel FlowSpec LayoutSpec LayoutProps TreeSpec TreeProof TreeProof3 TreeProof5 TreeProps.
From Verif Require Import CleanSpec CleanProof2 CleanProps.
From Verif Require Import CleanModel CleanSpec FlowModel FlowSpec LayoutModel WholeModel WholeSpec.
From Verif Require Import WholeProof WholeProof2 WholeProof3 WholeProof4 WholeProof5 WholeProof6 WholeProof7 WholeProps PlaceProof3.
From Verif Require DocxModel PageModel ShapeModel.
From Verif Require Import ShapeModel ShapeSpec FmtSpec LayoutFormat FmtProof FmtProof2 FmtProof3 FmtProof4 FmtProof5 FmtProof6 FmtProof7 CleanModel CleanSpec WholeModel WholeSpec FmtSpec.
From Coq Require Import Lia Lqa Permutation Sorting.Sorted.
Notation length := List.length.
Open Scope Q_scope.

(** Pages of paragraphs (C73) whose drawings and links are formats of the text and no more: the conversion does not fail, and the document shows,
    page by page, each paragraph of the pdf as one paragraph with the same characters and pictures in the same order; each character has the
    formats it had, then those of the drawings and links over more than half of it - underlined, struck through, highlighted with
    the colour of the drawing, linked to the address of the link - in the order drawn lines, areas, links, and no other. *)
Theorem C75_formatted order rorder ids pm fuel (pgs : list (rawpage * list tblock * (shape -> rtype))) tpl :
  (forall l, Permutation l (order l)) -> 1 # 1000000 < p_line_overlap pm -> 0 < p_float_layout pm -> pgs <> [] ->
  Forall (fun '(r, ts, kind) => paragraph_page (without_drawings r) ts /\ forall c, clean_page order pm r = Some c ->
    one_column (PageModel.working_bbox (r_width r) (r_height r) (page_margin pm r c)) ts /\ formats_only kind c ts) pgs ->
  exists ps secs body, Forall2 (fun '(r, _, _) p => parse_page order rorder ids pm (S fuel) r = Ok p) pgs ps /\ document_docx tpl ps = Some (secs, body) /\
    Forall2 (fun '(r, _, _) s => exists c, clean_page order pm r = Some c /\ s = page_section r (page_margin pm r c)) pgs secs /\
    Forall2 (fun content '(r, ts, kind) => exists c, clean_page order pm r = Some c /\
      Forall2 (fun e t => exists gs, e = Some gs /\ Forall2 (formatted kind (in_turn (c_shapes c))) (line_glyphs (b_lines t)) gs) (flat_map entry content) ts) (dsections [] body) pgs /\
    flat_map floats_of body = [] /\ well_formed body.
Proof.
  intros Ho T Tf Ne F.
  set (Q := fun (pg : rawpage * list tblock * (shape -> rtype)) p => let '(r, ts, kind) := pg in exists c, clean_page order pm r = Some c /\ sp_section p = page_section r (page_margin pm r c) /\
      Forall2 (fun e t => exists gs, e = Some gs /\ Forall2 (formatted kind (in_turn (c_shapes c))) (line_glyphs (b_lines t)) gs) (map block_entry (sp_blocks p)) ts /\ sp_floats p = [] /\ forall b, In b (sp_blocks p) -> regular b).
  assert (G : exists ps, Forall2 (fun '(r, _, _) p => parse_page order rorder ids pm (S fuel) r = Ok p) pgs ps /\ Forall2 Q pgs ps).
  { clear Ne. induction F as [|[[r ts] kind] pgs (Pp & Oc) F IH]; [exists []; split; constructor|]. destruct IH as (ps & A & B).
    destruct (page_marked order rorder ids pm fuel kind r ts Ho T Tf Pp Oc) as (c & ss & bs' & Cl & E & Sp & Fm). eexists (_ :: ps). split; [constructor; [exact E|exact A]|]. constructor; [|exact B].
    exists c. cbn [sp_section sp_blocks sp_floats]. split; [exact Cl|]. split; [reflexivity|]. split; [|split; [reflexivity|]].
    - clear - Sp Fm. revert ts Fm. induction Sp as [|u s us ss Su Sp IH]; intros ts Fm; inversion Fm as [|t ? ts' ? Ft Fm']; subst; cbn [map]; constructor; [|apply IH, Fm'].
      destruct Su as (x & -> & L & _). cbn [block_entry]. rewrite L. eexists. split; [reflexivity|exact (lines_glyphs_at _ _ _ _ Ft)].
    - clear - Sp. intros b Hb. induction Sp as [|u s us ss (x & -> & _) Sp IH]; [destruct Hb|]. destruct Hb as [<-|Hb]; [constructor|apply IH, Hb]. }
  destruct G as (ps & A & B).
  assert (Np : ps <> []) by (destruct A; congruence).
  destruct (document_written tpl ps Np) as (body & D & Wf & _ & _ & _).
  { intros p b Hp Hb. clear - B Hp Hb. induction B as [|[[r ts] kind] p' pgs ps (c & _ & _ & _ & _ & R) B IH]; [destruct Hp|]. destruct Hp as [->|Hp]; [apply R, Hb|apply IH, Hp]. }
  destruct (C70_blocks tpl ps _ body Np D) as (Sc & En & _ & Fl).
  exists ps, (map sp_section ps), body. split; [exact A|]. split; [exact D|]. split; [|split; [|split; [|exact Wf]]].
  - clear - B. induction B as [|[[r ts] kind] p pgs ps (c & Cl & E & _) B IH]; cbn [map]; constructor; [exists c; split; assumption|exact IH].
  - clear - En B. revert pgs B. generalize dependent (dsections [] body). intros l En. induction En as [|content p l ps E En IH]; intros pgs B; inversion B as [|[[r ts] kind] ? pgs' ? (c & Cl & _ & X & _) B']; subst; constructor; [|apply IH, B'].
    exists c. split; [exact Cl|]. rewrite E. exact X.
  - rewrite Fl. clear - B. induction B as [|[[r ts] kind] p pgs ps (c & _ & _ & _ & E & _) B IH]; [reflexivity|]. cbn [flat_map]. rewrite E, IH. reflexivity.
Qed.
Print Assumptions C75_formatted.

(* ------------------------------------------------------------------ *)
(** * Concrete pages *)
Definition properb (r : rect) : bool := qlt (rx0 r) (rx1 r) && qlt (ry0 r) (ry1 r).
Definition decimalb (r : rect) : bool := forallb (fun x => Qeq_bool x (inject_Z (Qnum (Qred (x * 10))) / 10)) [rx0 r; ry0 r; rx1 r; ry1 r].
Lemma properb_ok r : properb r = true -> proper r.
Proof. unfold properb. rewrite andb_true_iff, !qlt_iff. auto. Qed.
Lemma decimalb_ok r : decimalb r = true -> rect_decimal r.
Proof. unfold decimalb. cbn [forallb]. rewrite !andb_true_iff. intros (A & B & C & D & _). split; [|split; [|split]]; apply PlaceProps.decimal_check; assumption. Qed.
Fixpoint followb (cs : list char) : bool := match cs with [] => true | a :: r => forallb (fun b => qle (rx1 (ch_bbox a)) (rx0 (ch_bbox b))) r && followb r end.
Definition set_textb (t : tspan) : bool :=
  properb (ts_bbox t) && decimalb (ts_bbox t) && followb (ts_chars t) &&
  forallb (fun c => properb (ch_bbox c) && qeq (ry0 (ch_bbox c)) (ry0 (ts_bbox t)) && qeq (ry1 (ch_bbox c)) (ry1 (ts_bbox t)) && qle (rx0 (ts_bbox t)) (rx0 (ch_bbox c)) && qle (rx1 (ch_bbox c)) (rx1 (ts_bbox t))) (ts_chars t).
Lemma set_textb_ok t : set_textb t = true -> set_text t.
Proof.
  unfold set_textb. rewrite !andb_true_iff. intros (((P & D) & F) & C). rewrite forallb_forall in C.
  assert (C' : forall c, In c (ts_chars t) -> proper (ch_bbox c) /\ ry0 (ch_bbox c) == ry0 (ts_bbox t) /\ ry1 (ch_bbox c) == ry1 (ts_bbox t) /\ rx0 (ts_bbox t) <= rx0 (ch_bbox c) /\ rx1 (ch_bbox c) <= rx1 (ts_bbox t)).
  { intros c Hc. specialize (C c Hc). rewrite !andb_true_iff, !qeq_iff, !qle_iff in C. destruct C as ((((A1 & A2) & A3) & A4) & A5). split; [apply properb_ok, A1|]. auto. }
  split; [apply properb_ok, P|]. split; [apply decimalb_ok, D|]. split; [|intros c Hc; apply (C' c Hc)]. split.
  - exists (ry0 (ts_bbox t)), (ry1 (ts_bbox t)). intros c Hc. destruct (C' c Hc) as (A & B & B' & _). split; [exact A|]. split; assumption.
  - clear - F. induction (ts_chars t) as [|x l IH]; intros i j a b Hij Ha Hb; [destruct i; discriminate|]. cbn [followb] in F. apply andb_true_iff in F. destruct F as [F1 F2]. destruct j as [|j]; [lia|]. destruct i as [|i].
    + injection Ha as <-. cbn in Hb. rewrite forallb_forall in F1. unfold follows. apply qle_iff, F1. eapply nth_error_In, Hb.
    + cbn in Ha, Hb. apply (IH F2 i j); [lia|exact Ha|exact Hb].
Qed.
Definition clearb (a b : rect) : bool := qlt (rx1 a) (rx0 b) || qlt (rx1 b) (rx0 a) || qlt (ry1 a) (ry0 b) || qlt (ry1 b) (ry0 a).
Definition overb (a b : rect) : bool := qlt (rx0 a) (rx1 b) && qlt (rx0 b) (rx1 a) && qlt (ry0 a) (ry1 b) && qlt (ry0 b) (ry1 a).
Lemma clearb_ok a b : clearb a b = true -> clear_of a b.
Proof. unfold clearb, clear_of. rewrite !orb_true_iff, !qlt_iff. tauto. Qed.
Lemma overb_iff a b : overb a b = true <-> over a b.
Proof. unfold overb, over. rewrite !andb_true_iff, !qlt_iff. tauto. Qed.
Definition showsb (s : shape) (t : rect) (k : rtype) : bool :=
  let h := rheight (sh_bbox s) in let H := rheight t in let d := qabs (ry1 t - ry0 (sh_bbox s)) in
  match k with
  | R_HYPERLINK => rtype_eqb (sh_type s) R_HYPERLINK
  | R_UNDERLINE => rtype_eqb (sh_type s) R_UNDEFINED && qlt h (H / 2) && qle d (H / 4)
  | R_STRIKE => rtype_eqb (sh_type s) R_UNDEFINED && qlt h (H / 2) && (qlt ((35 # 100) * H) d && qlt d ((75 # 100) * H))
  | R_HIGHLIGHT => rtype_eqb (sh_type s) R_UNDEFINED && qle (H / 2) h && negb (Z.eqb (sh_color s) 16777215) && qle ((3 # 4) * H) (qmin (ry1 t) (ry1 (sh_bbox s)) - qmax (ry0 t) (ry0 (sh_bbox s)))
  | _ => false
  end.
Lemma showsb_ok s t k : showsb s t k = true -> shows s t k.
Proof.
  assert (R : forall a b, rtype_eqb a b = true -> a = b) by (intros [] []; intros; try reflexivity; discriminate).
  unfold showsb, shows. cbv zeta. destruct k; try discriminate; rewrite ?andb_true_iff, ?qlt_iff, ?qle_iff, ?ParaProof.qabs_Qabs', ?negb_true_iff, ?Z.eqb_neq.
  - intros (((A & B) & C) & D). auto.
  - intros ((A & B) & C). auto.
  - intros ((A & B) & C & D). auto.
  - auto.
Qed.
Definition halfb (r : rect) (c : char) : bool :=
  let b := ch_bbox c in qle (ry0 b) (ry1 r) && qle (ry0 r) (ry1 b) && qlt ((rx1 b - rx0 b) / 2) (qmin (rx1 b) (rx1 r) - qmax (rx0 b) (rx0 r)).
Lemma halfb_ok r c : halfb r c = true -> half_covered true r c.
Proof. unfold halfb, half_covered. cbv zeta. cbn [negb hi lo]. rewrite !andb_true_iff, !qle_iff, qlt_iff. tauto. Qed.
Fixpoint pairsb (t : rect) (a : shape) (r : list shape) : bool :=
  match r with
  | [] => true
  | b :: z => (negb (overb (sh_bbox a) t && overb (sh_bbox b) t) || (qlt (rx1 (sh_bbox a)) (rx0 (sh_bbox b)) || qlt (rx1 (sh_bbox b)) (rx0 (sh_bbox a))) ||
      (qeq (rx0 (sh_bbox a)) (rx0 (sh_bbox b)) && qeq (rx1 (sh_bbox a)) (rx1 (sh_bbox b)) && forallb (fun d => negb (overb (sh_bbox d) t) || negb (qlt (rx1 (sh_bbox d)) (rx0 (sh_bbox b)))) z)) && pairsb t a z
  end.
Fixpoint all_pairsb (t : rect) (ms : list shape) : bool := match ms with [] => true | a :: r => pairsb t a r && all_pairsb t r end.
Definition markedb (kind : shape -> rtype) (ms : list shape) (t : tspan) : bool :=
  forallb (fun s => clearb (sh_bbox s) (ts_bbox t) || (overb (sh_bbox s) (ts_bbox t) && showsb s (ts_bbox t) (kind s) && existsb (halfb (sh_bbox s)) (ts_chars t))) ms && all_pairsb (ts_bbox t) ms.
Lemma markedb_ok kind ms t : markedb kind ms t = true -> clearly_marked kind ms t.
Proof.
  unfold markedb. rewrite andb_true_iff. intros (A & B). split.
  - intros s Hs. rewrite forallb_forall in A. specialize (A s Hs). rewrite orb_true_iff, !andb_true_iff in A. destruct A as [A|((A1 & A2) & A3)]; [left; apply clearb_ok, A|right].
    split; [apply overb_iff, A1|]. split; [apply showsb_ok, A2|]. apply existsb_exists in A3. destruct A3 as (c & Hc & H). exists c. split; [exact Hc|apply halfb_ok, H].
  - clear A. intros x a y b z E Oa Ob. revert ms B E. induction x as [|e x IH]; intros ms B E; subst ms; cbn [app all_pairsb] in B; apply andb_true_iff in B; destruct B as [B1 B2]; [|exact (IH _ B2 eq_refl)].
    clear B2. induction y as [|e y IH]; cbn [app pairsb] in B1; apply andb_true_iff in B1; destruct B1 as [B1 B2]; [|exact (IH B2)]. clear B2.
    apply overb_iff in Oa, Ob. rewrite Oa, Ob in B1. cbn [andb negb orb] in B1. rewrite !orb_true_iff, !andb_true_iff, !qlt_iff, !qeq_iff in B1. destruct B1 as [B1|((E0 & E1) & F)]; [left; exact B1|right].
    split; [split; assumption|]. intros d Hd Od. rewrite forallb_forall in F. specialize (F d Hd). apply overb_iff in Od. rewrite Od in F. cbn [negb orb] in F. apply negb_true_iff in F. intros K. apply qlt_iff in K. congruence.
Qed.
(** A line of characters, 50 points wide each. *)
Fixpoint fm_chars (n : nat) (ch : Z) (x y0 y1 : Z) : list char :=
  match n with O => [] | S m => mkChar ch (ly_rect x y0 (x + 50) y1) :: fm_chars m (ch + 1) (x + 50) y0 y1 end.
Definition fm_text (n : nat) (ch : Z) (y0 y1 : Z) : tspan := mkTspan (fm_chars n ch 50 y0 y1) (ly_rect 50 y0 (50 + 50 * Z.of_nat n) y1) [] (mkAttrs 0 10 0 0).
Definition fm_line (n : nat) (ch : Z) (pid : nat) (y0 y1 : Z) : line := mkLine (ts_bbox (fm_text n ch y0 y1)) LEFT_RIGHT [SText (fm_text n ch y0 y1)] (Some pid) false.
Definition fm_head : tblock := mkBlk false (ly_rect 50 50 150 60) [fm_line 2 65 1 50 60].
Definition fm_body : tblock := mkBlk false (ly_rect 50 100 550 130) [fm_line 10 97 2 100 115; fm_line 3 107 2 115 130].
Definition fm_foot : tblock := mkBlk false (ly_rect 50 200 250 215) [fm_line 4 120 3 200 215].
(** The heading struck through; "bc" underlined and linked, "fg" highlighted, "yz" linked. *)
Definition fm_drawings : list shape :=
  [new_link (mkRect (995 # 10) 101 (2005 # 10) 114) 8; new_fill (ly_rect 300 101 400 114) 255 R_UNDEFINED; ShapeModel.new_stroke 60 55 140 55 1 0 R_UNDEFINED;
   ShapeModel.new_stroke 100 114 200 114 1 0 R_UNDEFINED; new_link (ly_rect 100 200 200 215) 9].
Definition fm_page : rawpage := mkRaw 600 800 [fm_foot; fm_body; fm_head] fm_drawings.
Definition fm_kind (s : shape) : rtype := match sh_kind s with KLink => R_HYPERLINK | KFill => R_HIGHLIGHT | KStroke => if qlt (ry0 (sh_bbox s)) 60 then R_STRIKE else R_UNDERLINE end.
Lemma fm_set n ch y0 y1 : set_textb (fm_text n ch y0 y1) = true -> set_text (fm_text n ch y0 y1).
Proof. apply set_textb_ok. Qed.
Lemma fm_paragraph b : In b [fm_head; fm_body; fm_foot] -> paragraph b.
Proof.
  intros H. assert (B : forall x y z w, decimalb (ly_rect x y z w) = true -> rect_decimal (ly_rect x y z w)) by (intros; apply int_box).
  assert (L : forall l, In l (b_lines b) -> normal_line l /\ ln_dir l = LEFT_RIGHT).
  { intros l Hl. cbn in H. repeat (destruct H as [<-|H]; [cbn in Hl; repeat (destruct Hl as [<-|Hl]; [split; [split; [split; reflexivity|split; [apply int_box|intros s [<-|[]]; split; [repeat split; vm_compute; discriminate|split; [apply int_box|reflexivity]]]]|reflexivity]|]); destruct Hl|]). destruct H. }
  split; [cbn in H; repeat (destruct H as [<-|H]; [intros X; discriminate X|]); destruct H|]. split.
  - split; [cbn in H; repeat (destruct H as [<-|H]; [apply int_box|]); destruct H|]. split; [cbn in H; repeat (destruct H as [<-|H]; [split; reflexivity|]); destruct H|].
    intros l Hl. cbn in H. repeat (destruct H as [<-|H]; [cbn in Hl; repeat (destruct Hl as [<-|Hl]; [split; [repeat split; vm_compute; discriminate|intros s [<-|[]]; repeat split; vm_compute; discriminate]|]); destruct Hl|]). destruct H.
  - split; [cbn in H; repeat (destruct H as [<-|H]; [discriminate|]); destruct H|]. split; [|exact L].
    cbn in H. repeat (destruct H as [<-|H]; [eexists; intros l Hl; cbn in Hl; repeat (destruct Hl as [<-|Hl]; [reflexivity|]); destruct Hl|]). destruct H.
Qed.
Definition insideb (s : shape) (bs : list ShapeModel.tblock) : bool := existsb (fun b => contains (ShapeModel.tb_bbox b) (sh_bbox s) 1 && existsb (fun l => contains l (sh_bbox s) 1) (tb_lines b)) bs.
Definition behindb (s : shape) (bs : list ShapeModel.tblock) : bool := existsb (fun b => contains (sh_bbox s) (ShapeModel.tb_bbox b) FACTOR_MAJOR || existsb (fun l => contains (sh_bbox s) l FACTOR_MAJOR) (tb_lines b)) bs.
Lemma insideb_ok s bs : insideb s bs = true -> inside_text s bs.
Proof.
  unfold insideb, inside_text. rewrite existsb_exists. intros (b & Hb & H). apply andb_true_iff in H. destruct H as [H1 H2]. apply existsb_exists in H2. destruct H2 as (l & Hl & H2). exists b. split; [exact Hb|]. split; [exact H1|]. exists l. split; assumption.
Qed.
Lemma behindb_ok s bs : behindb s bs = false -> ~ behind_text s bs.
Proof.
  unfold behindb, behind_text. intros H (b & Hb & K). rewrite <- not_true_iff_false in H. apply H. apply existsb_exists. exists b. split; [exact Hb|]. apply orb_true_iff. destruct K as [K|(l & Hl & K)]; [left; exact K|right]. apply existsb_exists. exists l. split; assumption.
Qed.
Definition aloneb (ms : list shape) (a b : tblock) : bool :=
  forallb (fun s => rtype_eqb (sh_type s) R_HYPERLINK || forallb (fun t => forallb (fun u => negb (overb (sh_bbox s) (ts_bbox t) && overb (sh_bbox s) (ts_bbox u))) (texts_in b)) (texts_in a)) ms.
Lemma aloneb_ok ms a b : aloneb ms a b = true -> alone ms a b.
Proof.
  unfold aloneb. rewrite forallb_forall. intros H s t u Hs Ht Hat Hbu Ot Ou. specialize (H s Hs). apply orb_true_iff in H. destruct H as [H|H]; [apply Ht; revert H; destruct (sh_type s); intros; try reflexivity; discriminate|].
  rewrite forallb_forall in H. specialize (H t Hat). rewrite forallb_forall in H. specialize (H u Hbu). apply overb_iff in Ot, Ou. rewrite Ot, Ou in H. discriminate.
Qed.
Fixpoint ordb (ms : list shape) (ts : list tblock) : bool := match ts with [] => true | a :: r => forallb (aloneb ms a) r && ordb ms r end.
Lemma ordb_ok ms ts : ordb ms ts = true -> ForallOrdPairs (alone ms) ts.
Proof.
  induction ts as [|a r IH]; intros H; [constructor|]. cbn [ordb] in H. apply andb_true_iff in H. destruct H as [H1 H2]. constructor; [|apply IH, H2]. rewrite Forall_forall. rewrite forallb_forall in H1. intros b Hb. apply aloneb_ok, H1, Hb.
Qed.
Definition formatsb (kind : shape -> rtype) (c : cleaned) (ts : list tblock) : bool :=
  forallb (fun s => properb (sh_bbox s) && decimalb (sh_bbox s)) (c_shapes c) &&
  forallb (fun s => match sh_kind s with KStroke => insideb s (text_boxes c) | KFill => negb (behindb s (text_boxes c)) | _ => true end) (c_shapes c) &&
  forallb (fun b => forallb (fun t => set_textb t && markedb kind (in_turn (c_shapes c)) t) (texts_in b)) ts && ordb (in_turn (c_shapes c)) ts.
Lemma formatsb_ok kind c ts : formatsb kind c ts = true -> formats_only kind c ts.
Proof.
  unfold formatsb. rewrite !andb_true_iff, !forallb_forall. intros (((A & B) & C) & D). split; [|split; [|split; [|split]]].
  - intros s Hs. specialize (A s Hs). apply andb_true_iff in A. destruct A as [A1 A2]. split; [apply properb_ok, A1|apply decimalb_ok, A2].
  - intros s Hs K. specialize (B s Hs). rewrite K in B. apply insideb_ok, B.
  - intros s Hs K. specialize (B s Hs). rewrite K in B. apply negb_true_iff in B. apply behindb_ok, B.
  - intros b t Hb Ht. specialize (C b Hb). rewrite forallb_forall in C. specialize (C t Ht). apply andb_true_iff in C. destruct C as [C1 C2]. split; [apply set_textb_ok, C1|apply markedb_ok, C2].
  - apply ordb_ok, D.
Qed.
Example C75_formatted_nonvacuous :
  (paragraph_page (without_drawings fm_page) [fm_head; fm_body; fm_foot] /\ forall c, clean_page wh_order default_params fm_page = Some c ->
    one_column (PageModel.working_bbox (r_width fm_page) (r_height fm_page) (page_margin default_params fm_page c)) [fm_head; fm_body; fm_foot] /\ formats_only fm_kind c [fm_head; fm_body; fm_foot]) /\
  exists p, wh_parse fm_page = Ok p /\
    map (fun b => option_map (map (fun g => (match fst g with GChar c _ => ch_c c | GImage _ _ => 0%Z end, map st_type (snd g)))) (block_entry b)) (sp_blocks p) =
      [Some [(65, [R_STRIKE]); (66, [R_STRIKE])];
       Some [(97, []); (98, [R_UNDERLINE; R_HYPERLINK]); (99, [R_UNDERLINE; R_HYPERLINK]); (100, []); (101, []); (102, [R_HIGHLIGHT]); (103, [R_HIGHLIGHT]); (104, []); (105, []); (106, []);
             (107, []); (108, []); (109, [])];
       Some [(120, []); (121, [R_HYPERLINK]); (122, [R_HYPERLINK]); (123, [])]]%Z.
Proof.
  split; [split|].
  - assert (OB : forall a b, other_block a b <-> forall l m, In l (b_lines a) -> In m (b_lines b) -> ln_pid l <> ln_pid m) by (intros a b; reflexivity).
    split; [reflexivity|]. split; [split; reflexivity|]. split; [|split; [|split; [|split]]].
    + intros b H. cbn in H. repeat (destruct H as [<-|H]; [split; [split; reflexivity|]; split; [split; [repeat split; reflexivity|]; split; [eexists; split; [left; reflexivity|reflexivity]|intros l Hl; left; cbn in Hl; repeat (destruct Hl as [<-|Hl]; [reflexivity|]); destruct Hl]|reflexivity]|]). destruct H.
    + assert (E : map block_strip (r_blocks (without_drawings fm_page)) = [fm_foot; fm_body; fm_head]) by (vm_compute; reflexivity). rewrite E. change [fm_foot; fm_body; fm_head] with (rev [fm_head; fm_body; fm_foot]). apply Permutation_sym, Permutation_rev.
    + rewrite Forall_forall. intros b H. apply fm_paragraph. exact H.
    + repeat constructor; intros l m Hl Hm; cbn in Hl, Hm; repeat (destruct Hl as [<-|Hl]; [repeat (destruct Hm as [<-|Hm]; [discriminate|]); destruct Hm|]); destruct Hl.
    + unfold top_down. cbn [lines_in flat_map b_lines fm_head fm_body fm_foot app map]. repeat first [apply SSorted_nil|apply SSorted_cons|apply Forall_nil|apply Forall_cons|vm_compute; discriminate].
  - intros c E. split.
    + vm_compute in E. injection E as <-. exists (fm_line 10 97 2 100 115), (fm_line 2 65 1 50 60), (fm_line 4 120 3 200 215). cbn [lines_in flat_map b_lines fm_head fm_body fm_foot app].
      split; [right; left; reflexivity|]. split; [left; reflexivity|]. split; [do 3 right; left; reflexivity|]. split; [split; vm_compute; discriminate|]. split; [left; vm_compute; reflexivity|]. split; [left; vm_compute; reflexivity|]. split; vm_compute; discriminate.
    + apply formatsb_ok. assert (K : match clean_page wh_order default_params fm_page with Some c' => formatsb fm_kind c' [fm_head; fm_body; fm_foot] | None => false end = true) by (vm_compute; reflexivity). rewrite E in K. exact K.
  - eexists. split; [vm_compute; reflexivity|]. vm_compute. reflexivity.
Qed.
(** What a page becomes: each character with the kinds of its formats. *)
Definition fm_show (r : rawpage) : list (Z * list rtype) :=
  match wh_parse r with
  | Ok p => flat_map (fun b => match block_entry b with Some gs => map (fun g => (match fst g with GChar c _ => ch_c c | GImage _ _ => 0%Z end, map st_type (snd g))) gs | None => [] end) (sp_blocks p)
  | _ => []
  end.
Definition fm_with (d : list shape) : rawpage := mkRaw 600 800 [fm_foot; fm_body; fm_head] d.
(** The character "b". *)
Definition fm_b : char := mkChar 98 (ly_rect 100 100 150 115).
(** Finding: two underlines (highlights) that touch, "bc" and "de", make a link over the first word disappear: the second, touching
    the box of "bc" at its right end, is taken to split it, and all its text is left with a box without width, which no later shape meets
    (TextSpan.py:217-273, the right part of a span none of whose characters is covered). *)
Theorem C75_adjacent_refuted : exists d s, In s d /\ sh_type s = R_HYPERLINK /\ In fm_b (flat_map (fun b => flat_map ts_chars (texts_in b)) (r_blocks (fm_with d))) /\ half_covered true (sh_bbox s) fm_b /\
  In (98%Z, [R_UNDERLINE]) (fm_show (fm_with d)) /\ ~ (exists k, In (98%Z, k) (fm_show (fm_with d)) /\ In R_HYPERLINK k).
Proof.
  exists [ShapeModel.new_stroke 100 114 200 114 1 0 R_UNDEFINED; ShapeModel.new_stroke 200 114 300 114 1 1 R_UNDEFINED; new_link (ly_rect 100 101 200 114) 8], (new_link (ly_rect 100 101 200 114) 8).
  split; [do 2 right; left; reflexivity|]. split; [reflexivity|]. split; [vm_compute; tauto|]. split; [apply halfb_ok; vm_compute; reflexivity|].
  match goal with |- In _ ?x /\ _ => let v := eval vm_compute in x in assert (E : x = v) by (vm_compute; reflexivity); rewrite E end.
  split; [cbn; tauto|]. intros (k & H & K). cbn in H. repeat (destruct H as [H|H]; [first [discriminate H|injection H as Hk; subst k; cbn in K; repeat (destruct K as [K|K]; [discriminate K|]); destruct K]|]). destruct H.
Qed.
Print Assumptions C75_adjacent_refuted.
(** Finding: after a word was both underlined and highlighted over the same extent, a link over a word to the left of it, in the same run of
    text, disappears (same cause: the second shape touches the box of the text before the word at its right end). *)
Theorem C75_twice_refuted : exists d s, In s d /\ sh_type s = R_HYPERLINK /\ In fm_b (flat_map (fun b => flat_map ts_chars (texts_in b)) (r_blocks (fm_with d))) /\ half_covered true (sh_bbox s) fm_b /\
  (forall x, In x d -> x <> s -> gap_between (sh_bbox x) (sh_bbox s)) /\ ~ (exists k, In (98%Z, k) (fm_show (fm_with d)) /\ In R_HYPERLINK k).
Proof.
  set (s := new_link (ly_rect 100 101 200 114) 8). set (x := ShapeModel.new_stroke 300 114 400 114 1 0 R_UNDEFINED). set (y := new_fill (mkRect (2995 # 10) 101 (4005 # 10) 114) 255 R_UNDEFINED).
  exists [x; y; s], s.
  split; [do 2 right; left; reflexivity|]. split; [reflexivity|]. split; [vm_compute; tauto|]. split; [apply halfb_ok; vm_compute; reflexivity|].
  split. { intros z [<-|[<-|[<-|[]]]] Ne; [right; vm_compute; reflexivity|right; vm_compute; reflexivity|congruence]. }
  match goal with |- ~ (exists k, In _ ?x /\ _) => let v := eval vm_compute in x in assert (E : x = v) by (vm_compute; reflexivity); rewrite E end.
  intros (k & H & K). cbn in H. repeat (destruct H as [H|H]; [first [discriminate H|injection H as Hk; subst k; cbn in K; repeat (destruct K as [K|K]; [discriminate K|]); destruct K]|]). destruct H.
Qed.
Print Assumptions C75_twice_refuted.
(** Finding: one highlight over two paragraphs colours only the first: once a shape has formatted a block, its type is settled and
    it is not applied to the next one (TextBlock.py:138-140, TextSpan.py:305-328). *)
Definition fm_twice : rawpage :=
  mkRaw 600 800 [mkBlk false (ly_rect 50 200 250 215) [fm_line 4 120 3 200 215]; mkBlk false (ly_rect 50 215 250 230) [fm_line 4 110 4 215 230]; fm_body; fm_head] [new_fill (ly_rect 100 200 200 230) 255 R_UNDEFINED].
Theorem C75_two_paragraphs_refuted : exists s, r_shapes fm_twice = [s] /\ half_covered true (sh_bbox s) (mkChar 121 (ly_rect 100 200 150 215)) /\ half_covered true (sh_bbox s) (mkChar 111 (ly_rect 100 215 150 230)) /\
  In (121%Z, [R_HIGHLIGHT]) (fm_show fm_twice) /\ In (111%Z, []) (fm_show fm_twice).
Proof.
  eexists. split; [reflexivity|]. split; [apply halfb_ok; vm_compute; reflexivity|]. split; [apply halfb_ok; vm_compute; reflexivity|].
  split; vm_compute; repeat (first [left; reflexivity|right]).
Qed.
Print Assumptions C75_two_paragraphs_refuted.
