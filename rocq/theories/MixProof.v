(** Proofs for C88. *)
From Verif Require GeomProof TextProof.
From Verif Require Import AssignSpec AssignProof PySort FlowModel FlowSpec LayoutSpec LayoutProps TreeSpec TreeProof TreeProof3 TreeProof5 TreeProof6 TreeProps.
From Verif Require Import CleanSpec CleanProof2 CleanProps.
From Verif Require Import CleanModel CleanSpec FlowModel FlowSpec LayoutModel WholeModel WholeSpec.
From Verif Require Import WholeProof WholeProof2 WholeProof3 WholeProof4 WholeProof5 WholeProof6 WholeProof7 WholeProof8 WholeProps.
From Verif Require DocxModel DocxProps PageModel ShapeModel ConverterModel ConverterSpec ConverterProps.
From Verif Require Import TabSpec GridProps TabProof11 TabProps ColSpec ColProof3 HeadSpec HeadProof2.
From Verif Require Import GridSpec CleanModel MixModel MixSpec TreeSpec WholeSpec.
From Coq Require Import Lia Lqa Permutation Sorting.Sorted.
Notation length := List.length.
Open Scope Q_scope.

(** The items of each section are made of the blocks of its page, whatever the other pages are. *)
Lemma pages_items : forall ps mss pre all contents, Forall2 (fun p ms => Forall2 (fun b m => block_docx b = Some m) (sp_blocks p) ms) ps mss ->
  all = pre ++ concat mss ->
  Forall2 (fun content p => flat_map DocxSpec.shows content = DocxSpec.should_show (DocxModel.p_blocks p)) contents (number_pages (List.length pre) (combine ps mss)) ->
  Forall2 (fun content p => exists ms, Forall2 (fun b m => block_docx b = Some m) (sp_blocks p) ms /\ Forall2 item_of ms (filter visible content)) (map (map (expand all)) contents) ps.
Proof.
  induction ps as [|p ps IH]; intros mss pre all contents F Ea C; inversion F as [|? ms ? mss' F1 F2]; subst.
  - cbn in C. inversion C; subst. constructor.
  - cbn [combine number_pages] in C. inversion C as [|content ? contents' ? C1 C2]; subst. cbn [map]. constructor.
    + exists ms. split; [exact F1|]. apply essence_items. rewrite expand_esss, C1. cbn [DocxModel.p_blocks]. apply (ness_number _ pre ms (concat mss') eq_refl).
    + apply (IH mss' (pre ++ ms)); [exact F2|cbn [concat]; rewrite app_assoc; reflexivity|]. rewrite app_length. exact C2.
Qed.
Lemma document_items tpl ps secs body : ps <> [] -> document_docx tpl ps = Some (secs, body) ->
  Forall2 (fun content p => exists ms, Forall2 (fun b m => block_docx b = Some m) (sp_blocks p) ms /\ Forall2 item_of ms (filter visible content)) (dsections [] body) ps.
Proof.
  intros Hne E. destruct (document_inv tpl ps _ E) as (mss & F & Eo). injection Eo as _ ->.
  set (pages := number_pages 0 (combine ps mss)).
  assert (Def : forall p b, In p pages -> In b (DocxModel.p_blocks p) -> DocxModel.b_type b <> DocxModel.UNDEFINED) by (intros p b; apply pages_defined).
  assert (Hp : pages <> []). { unfold pages. clear - Hne F. destruct F as [|p ms ps mss F1 F2]; [contradiction|]. cbn [combine number_pages]. congruence. }
  destruct (DocxProps.C34_document tpl pages Hp Def) as (_ & _ & Sh).
  change (@nil ditem) with (map (expand (concat mss)) []). rewrite expand_sections. apply (pages_items ps mss [] (concat mss)); [exact F|reflexivity|exact Sh].
Qed.
(** The same table is in both. *)
Lemma same_tables : forall bs ms ms' ds ds' ind hs t, Forall2 (fun b m => block_docx b = Some m) bs ms -> Forall2 (fun b m => block_docx b = Some m) bs ms' ->
  Forall2 item_of ms ds -> Forall2 item_of ms' ds' -> In (DTable ind hs t) ds -> In (DTable ind hs t) ds'.
Proof.
  induction bs as [|b bs IH]; intros ms ms' ds ds' ind hs t F F' I I' H; inversion F as [|? m ? mt E F1]; subst; inversion F' as [|? m' ? mt' E' F1']; subst;
    inversion I as [|? d ? dt Im I1]; subst; [destruct H|]; inversion I' as [|? d' ? dt' Im' I1']; subst.
  assert (m = m') as -> by congruence. destruct H as [->|H]; [|right; apply (IH mt mt' dt dt'); assumption].
  left. destruct m' as [w|b' hs' g']; cbn [item_of] in Im; [contradiction|]. destruct Im as (<- & <- & <-). destruct d' as [| |a hs2 g2]; cbn [item_of] in Im'; try contradiction. destruct Im' as (<- & <- & <-). reflexivity.
Qed.

(** What is known of a page parsed, to be seen as [x]. *)
Definition page_of_plan order pm (r : rawpage) (x : plan) (p : spage) : Prop :=
  (exists c, clean_page order pm r = Some c /\ sp_section p = page_section r (page_margin pm r c)) /\ (forall b, In b (sp_blocks p) -> regular b) /\
  (exists fl, Permutation fl (on_text x) /\ Forall2 is_picture fl (sp_floats p)) /\
  forall content, flat_map entry content = map block_entry (sp_blocks p) ->
    (exists ms, Forall2 (fun b m => block_docx b = Some m) (sp_blocks p) ms /\ Forall2 item_of ms (filter visible content)) -> shows_plan r x content.
Lemma plan_parsed order rorder ids pm fuel r x (tpl : DocxModel.section) : (forall l, Permutation l (order l)) -> 1 # 1000000 < p_line_overlap pm -> 0 < p_float_layout pm -> 0 <= p_image_gap pm -> fits order pm r x ->
  exists p, parse_page order rorder ids pm (S (S fuel)) r = Ok p /\ page_of_plan order pm r x p.
Proof.
  intros Ho T Tf Gp. destruct x as [ts fs|g rg above cells below|above left right below]; cbn [fits].
  - intros (Pp & Oc). destruct (page_pictured order rorder ids pm (S fuel) r ts fs Ho T Tf Gp Pp Oc) as (c & ss & ks & fl & Cl & E & Sp & Pf & Fk). eexists. split; [exact E|].
    split; [exists c; split; [exact Cl|reflexivity]|]. cbn [sp_blocks sp_floats on_text]. split; [|split; [exists fl; split; assumption|]].
    + clear - Sp. intros b Hb. induction Sp as [|u s us ss (x & -> & _) Sp IH]; [destruct Hb|]. destruct Hb as [<-|Hb]; [constructor|apply IH, Hb].
    + intros content En _. cbn [shows_plan]. rewrite En, (spaced_entries _ _ Sp). apply entries_para.
  - intros ((d & Set_) & Pg & Ac).
    destruct (page_shown order rorder ids pm Ho d r g rg above below cells Set_ Pg fuel tpl Ac) as (c & pg & body & ind & hs & t & A1 & A2 & A3 & A4 & A5 & A6 & A7 & A8 & A9 & _ & Rg & _ & (sa & before & srows & sb & _ & _ & _ & Fl & _)).
    exists pg. split; [exact A2|]. assert (Np : [pg] <> []) by discriminate. destruct (C70_blocks tpl [pg] _ body Np A3) as (Sc & En & _ & _). rewrite A5 in En. inversion En as [|? ? ? ? En1 _]; subst.
    pose proof (document_items tpl [pg] _ body Np A3) as It. rewrite A5 in It. inversion It as [|? ? ? ? (ms & F1 & F2) _]; subst.
    split; [exists c; split; [exact A1|cbn [map] in Sc; injection Sc as <-; reflexivity]|]. split; [exact Rg|]. rewrite Fl. split; [exists []; split; constructor|].
    intros content Ec (ms' & F1' & F2'). cbn [shows_plan]. split; [rewrite Ec, <- En1; exact A6|]. exists ind, hs, t. split; [|split; [exact A8|exact A9]].
    assert (I : In (DTable ind hs t) (filter visible content)); [|apply filter_In in I; apply I].
    apply (same_tables _ _ _ _ _ ind hs t F1 F1' F2 F2'). apply filter_In. split; [exact A7|reflexivity].
  - intros (Lm & Pg & Ac).
    destruct (headed_written order rorder ids pm Ho T Tf Lm r above left right below Pg Ac fuel tpl) as (c & pg & body & ind & hs & t & A1 & A2 & A3 & A4 & A5 & A6 & A7 & A8 & Rg & Fl & _).
    exists pg. split; [exact A2|]. assert (Np : [pg] <> []) by discriminate. destruct (C70_blocks tpl [pg] _ body Np A3) as (Sc & En & _ & _). rewrite A5 in En. inversion En as [|? ? ? ? En1 _]; subst.
    pose proof (document_items tpl [pg] _ body Np A3) as It. rewrite A5 in It. inversion It as [|? ? ? ? (ms & F1 & F2) _]; subst.
    split; [exists c; split; [exact A1|cbn [map] in Sc; injection Sc as <-; reflexivity]|]. split; [exact Rg|]. rewrite Fl. split; [exists []; split; constructor|].
    intros content Ec (ms' & F1' & F2'). cbn [shows_plan]. split; [rewrite Ec, <- En1; exact A6|]. exists ind, hs, t. split; [|exact A8].
    assert (I : In (DTable ind hs t) (filter visible content)); [|apply filter_In in I; apply I].
    apply (same_tables _ _ _ _ _ ind hs t F1 F1' F2 F2'). apply filter_In. split; [exact A7|reflexivity].
Qed.

(** Documents of such pages. *)
Lemma document_of_plans order pm tpl (pages : list (rawpage * plan)) ps : ps <> [] -> Forall2 (fun rx p => page_of_plan order pm (fst rx) (snd rx) p) pages ps ->
  exists secs body, document_docx tpl ps = Some (secs, body) /\
    Forall2 (fun rx s => exists c, clean_page order pm (fst rx) = Some c /\ s = page_section (fst rx) (page_margin pm (fst rx) c)) pages secs /\
    Forall2 (fun rx content => shows_plan (fst rx) (snd rx) content) pages (dsections [] body) /\
    (exists kss, flat_map floats_of body = concat kss /\ Forall2 (fun rx ks => exists fl, Permutation fl (on_text (snd rx)) /\ Forall2 is_picture fl ks) pages kss) /\ well_formed body.
Proof.
  intros Np F. destruct (document_written tpl ps Np) as (body & D & Wf & _ & _ & _).
  { intros p b Hp Hb. clear - F Hp Hb. induction F as [|rx p' pages ps (_ & R & _) F IH]; [destruct Hp|]. destruct Hp as [->|Hp]; [apply R, Hb|apply IH, Hp]. }
  destruct (C70_blocks tpl ps _ body Np D) as (_ & En & _ & Fl). pose proof (document_items tpl ps _ body Np D) as It.
  exists (map sp_section ps), body. split; [exact D|]. split; [|split; [|split; [|exact Wf]]].
  - clear - F. induction F as [|rx p pages ps ((c & Cl & S) & _) F IH]; constructor; [exists c; split; assumption|exact IH].
  - clear - F En It. revert pages F. generalize dependent (dsections [] body). intros l En. induction En as [|content p l ps E En IH]; intros It pages F; inversion F as [|rx ? pages' ? (_ & _ & _ & Sh) F']; subst; inversion It as [|? ? ? ? I1 I2]; subst; constructor; [apply Sh; assumption|apply IH; assumption].
  - exists (map sp_floats ps). split; [rewrite Fl; apply flat_map_concat_map|]. clear - F. induction F as [|rx p pages ps (_ & _ & E & _) F IH]; constructor; [exact E|exact IH].
Qed.

(** The pages parsed are those to be seen. *)
Lemma good_shown (f : Z -> bool) (h : nat -> option plan) sel : forall ks : list nat,
  (forall k, In k ks -> f (Z.of_nat k) = match h k with Some _ => if in_dec Z.eq_dec (Z.of_nat k) sel then true else false | None => false end) ->
  filter f (map (fun k => (0 + Z.of_nat k)%Z) ks) =
    map (fun ix => Z.of_nat (fst ix)) (flat_map (fun i => match h i with Some x => if in_dec Z.eq_dec (Z.of_nat i) sel then [(i, x)] else [] | None => [] end) ks).
Proof.
  induction ks as [|k ks IH]; intros H; [reflexivity|]. cbn [map filter flat_map]. rewrite map_app, <- IH by (intros j Hj; apply H; right; exact Hj). rewrite Z.add_0_l, (H k (or_introl eq_refl)).
  destruct (h k) as [x|]; [|reflexivity]. destruct (in_dec Z.eq_dec (Z.of_nat k) sel); reflexivity.
Qed.
Lemma to_show_In n sel plans i x : In (i, x) (to_show n sel plans) -> (i < n)%nat /\ plans i = Some x /\ In (Z.of_nat i) sel.
Proof.
  unfold to_show. intros H. apply in_flat_map in H. destruct H as (k & Hk & H). apply in_seq in Hk. destruct (plans k) as [y|] eqn:E; [|destruct H]. destruct (in_dec Z.eq_dec (Z.of_nat k) sel) as [I|I]; [|destruct H].
  destruct H as [H|[]]. injection H as <- <-. split; [lia|]. split; [exact E|exact I].
Qed.
Section Convert.
Variable order : list nat -> list nat.
Variable rorder : list (Q * Q) -> list (Q * Q).
Variable ids : nat -> nat.
Variable pm : params.
Variable fuel : nat.
Variable tpl : DocxModel.section.
Variable rs : list rawpage.
Variables (start : Z) (end_ : option Z) (pages : list Z).
Variable plans : nat -> option plan.
Hypothesis Ho : forall l, Permutation l (order l).
Hypothesis T : 1 # 1000000 < p_line_overlap pm.
Hypothesis Tf : 0 < p_float_layout pm.
Hypothesis Gp : 0 <= p_image_gap pm.
Let sel := ConverterModel.page_indexes start end_ pages (Z.of_nat (length rs)).
Hypothesis Hs : sel <> [].
Hypothesis Fit : forall i r, In (Z.of_nat i) sel -> nth_error rs i = Some r ->
  match plans i with Some x => fits order pm r x | None => forall p, parse_page order rorder ids pm (S (S fuel)) r <> Ok p end.
Let orc := page_outcome order rorder ids pm (S (S fuel)) rs.
Lemma good_pages : filter (fun i => (if in_dec Z.eq_dec i sel then true else false) && ConverterSpec.succeeded (orc i)) (PyBase.zrange 0 (Z.of_nat (length rs))) =
  map (fun ix => Z.of_nat (fst ix)) (to_show (length rs) sel plans).
Proof.
  unfold PyBase.zrange. rewrite Z.sub_0_r, Nat2Z.id. apply good_shown. intros k Hk. apply in_seq in Hk. destruct (in_dec Z.eq_dec (Z.of_nat k) sel) as [I|I]; [|destruct (plans k); reflexivity].
  unfold orc, page_outcome. rewrite Nat2Z.id. destruct (nth_error rs k) as [r|] eqn:Er; [|apply nth_error_None in Er; lia]. specialize (Fit k r I Er). destruct (plans k) as [x|].
  - destruct (plan_parsed order rorder ids pm fuel r x tpl Ho T Tf Gp Fit) as (p & E & _). rewrite E. reflexivity.
  - destruct (parse_page order rorder ids pm (S (S fuel)) r) as [p| |] eqn:E; [destruct (Fit p eq_refl)|reflexivity|reflexivity].
Qed.
Lemma finished_pages : to_show (length rs) sel plans <> [] -> exists d rxs,
  snd (ConverterModel.step (ConverterModel.fresh (length rs) empty_page) (ConverterModel.OpConvert start end_ pages (fun _ => orc) (fun _ => true))) = ConverterModel.RDoc d /\ d <> [] /\
  Forall2 (fun ix rx => nth_error rs (fst ix) = Some (fst rx) /\ snd rx = snd ix) (to_show (length rs) sel plans) rxs /\
  Forall2 (fun rx p => fits order pm (fst rx) (snd rx) /\ parse_page order rorder ids pm (S (S fuel)) (fst rx) = Ok p /\ page_of_plan order pm (fst rx) (snd rx) p) rxs (map (@ConverterModel.d_content _) d).
Proof.
  intros Ne. pose proof (ConverterProps.C05_fresh_convert _ start end_ pages orc (fun _ => true) (length rs) empty_page Hs) as C. cbv zeta in C. fold sel in C.
  match type of C with match ?x with _ => _ end => destruct x as [| |d| |] eqn:Ed end; try (destruct C; fail); [exfalso; apply Ne; pose proof (eq_trans (eq_sym good_pages) C) as X; apply map_eq_nil in X; exact X|].
  destruct C as (Gn & Ids & Con). rewrite good_pages in Ids, Gn. exists d.
  assert (K : exists rxs, Forall2 (fun ix rx => nth_error rs (fst ix) = Some (fst rx) /\ snd rx = snd ix) (to_show (length rs) sel plans) rxs /\
    Forall2 (fun rx p => fits order pm (fst rx) (snd rx) /\ parse_page order rorder ids pm (S (S fuel)) (fst rx) = Ok p /\ page_of_plan order pm (fst rx) (snd rx) p) rxs (map (@ConverterModel.d_content _) d)).
  { assert (In' : forall i x, In (i, x) (to_show (length rs) sel plans) -> (i < length rs)%nat /\ plans i = Some x /\ In (Z.of_nat i) sel) by (intros i x; apply to_show_In).
    clear Ed Gn Ne. revert d Ids Con In'. generalize (to_show (length rs) sel plans). induction l as [|[i x] l IH]; intros d Ids Con In'; destruct d as [|p d]; try discriminate Ids; [exists []; split; constructor|].
    cbn [map fst] in Ids. injection Ids as E1 E2. destruct (IH d E2 (fun q Hq => Con q (or_intror Hq)) (fun j y Hy => In' j y (or_intror Hy))) as (rxs & F1 & F2).
    destruct (In' i x (or_introl eq_refl)) as (Hi & Ep & Is). destruct (nth_error rs i) as [r|] eqn:Er; [|apply nth_error_None in Er; lia]. pose proof (Fit i r Is Er) as Fi. rewrite Ep in Fi.
    destruct (plan_parsed order rorder ids pm fuel r x tpl Ho T Tf Gp Fi) as (p' & E & Pp). specialize (Con p (or_introl eq_refl)). rewrite E1 in Con. unfold orc, page_outcome in Con. rewrite Nat2Z.id, Er, E in Con. injection Con as Con.
    exists ((r, x) :: rxs). split; constructor; auto. cbn [map fst snd]. rewrite <- Con. split; [exact Fi|]. split; [exact E|exact Pp]. }
  destruct K as (rxs & F1 & F2). exists rxs. split; [reflexivity|]. split; [|split; assumption]. destruct d; [|discriminate]. cbn in Ids. symmetry in Ids. apply map_eq_nil in Ids. destruct (Ne Ids).
Qed.
Lemma converted_pages : to_show (length rs) sel plans <> [] -> exists ps rxs,
  convert_docx order rorder ids pm (S (S fuel)) tpl rs start end_ pages = document_docx tpl ps /\ ps <> [] /\
  Forall2 (fun ix rx => nth_error rs (fst ix) = Some (fst rx) /\ snd rx = snd ix) (to_show (length rs) sel plans) rxs /\ Forall2 (fun rx p => page_of_plan order pm (fst rx) (snd rx) p) rxs ps.
Proof.
  intros Ne. destruct (finished_pages Ne) as (d & rxs & E & Nd & F1 & F2). exists (map (@ConverterModel.d_content _) d), rxs. unfold convert_docx. fold orc. rewrite E. split; [reflexivity|].
  split; [destruct d; [destruct (Nd eq_refl)|discriminate]|]. split; [exact F1|]. clear - F2. induction F2 as [|rx p rxs ps (_ & _ & H) _ IH]; constructor; assumption.
Qed.
Lemma nothing_converted : to_show (length rs) sel plans = [] -> convert_docx order rorder ids pm (S (S fuel)) tpl rs start end_ pages = None.
Proof.
  intros Ne. pose proof (ConverterProps.C05_fresh_convert _ start end_ pages orc (fun _ => true) (length rs) empty_page Hs) as C. cbv zeta in C. fold sel in C. unfold convert_docx. fold orc.
  match type of C with match ?x with _ => _ end => destruct x as [| |d| |] eqn:Ed end; try (destruct C; fail); [reflexivity|]. destruct C as (Gn & _). rewrite good_pages, Ne in Gn. destruct (Gn eq_refl).
Qed.
End Convert.
