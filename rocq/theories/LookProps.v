(** C84: every character looks_as its look, from the page to the Word file. *)
From Verif Require GridProof6 CutProps TabProof5 GeomProof TableSpec DocxModel PageModel ShapeModel TextProof.
From Verif Require Import AssignSpec AssignProof PySort LayoutModel LayoutProps TreeSpec TreeProof TreeProof3 TreeProof5 TreeProps.
From Verif Require Import CleanSpec CleanProps ParaSpec.
From Verif Require Import WholeSpec WholeProof4 WholeProof6 WholeProof8 WholeProps PlaceProof2 TabSpec GridProps TabProof10 TabProof11 TabProps LookProof LookSpec.
From Verif Require Import FmtSpec FmtProof3 FmtProof5 FmtProof7 FmtProps.
From Verif Require Import GridSpec CleanModel.
From Coq Require Import Lia Lqa Permutation Sorting.Sorted.
Notation length := List.length.
Open Scope Q_scope.

(** Pages of paragraphs (C73): the document is written, and in each section, paragraph by paragraph, character by character, what is seen has
    the code, font, size, weight, slant, colour and formats of the character of the page. *)
Theorem C84_paragraphs names uris order rorder ids pm fuel rs tss tpl : (forall l, Permutation l (order l)) -> 1 # 1000000 < p_line_overlap pm -> 0 < p_float_layout pm -> rs <> [] ->
  Forall2 (fun r ts => paragraph_page r ts /\ plain_text names ts /\
    forall c, clean_page order pm r = Some c -> one_column (PageModel.working_bbox (r_width r) (r_height r) (page_margin pm r c)) ts) rs tss ->
  exists ps secs body, Forall2 (fun r p => parse_page order rorder ids pm (S fuel) r = Ok p) rs ps /\ document_try names uris tpl ps = (secs, body) /\
    Forall2 (fun content ts => Forall2 (fun t w => Forall2 (looks_as names uris) (line_glyphs (b_lines t)) (word_seen names uris w)) ts (flat_map paragraphs_of content)) (dsections [] body) tss.
Proof.
  intros Ho T Tf Ne F.
  assert (G : exists ps, Forall2 (fun r p => parse_page order rorder ids pm (S fuel) r = Ok p) rs ps /\
    Forall2 (fun p us => Forall2 spaced us (sp_blocks p) /\ (forall u l s, In u us -> In l (b_lines u) -> In s (ln_spans l) -> plain names s)) ps (map (map para_block) tss)).
  { clear Ne. induction F as [|r ts rs tss (Pp & Pl & Oc) F IH]; [exists []; split; constructor|]. destruct IH as (ps & A & B).
    destruct (page_laid order rorder ids pm fuel r ts Ho T Tf Pp Oc) as (c & ss & Cl & E & _ & Sp & _). eexists (_ :: ps). split; [constructor; [exact E|exact A]|]. cbn [map]. constructor; [|exact B].
    cbn [sp_blocks]. split; [exact Sp|]. intros u l s Hu Hl Hs. apply in_map_iff in Hu. destruct Hu as (t & <- & Ht). cbn [para_block b_lines] in Hl. apply (Pl l s); [|exact Hs]. apply in_flat_map. exists t. split; assumption. }
  destruct G as (ps & A & B). assert (Np : ps <> []) by (destruct A; congruence). destruct (document_kept names uris tpl ps _ Np B) as (body & D & K).
  exists ps, (map sp_section ps), body. split; [exact A|]. split; [exact D|].
  clear - K. revert K. generalize (dsections [] body). induction tss as [|ts tss IH]; intros cs K; inversion K as [|content ? cs' ? E K']; subst; constructor; [|apply IH, K'].
  clear - E. revert E. generalize (flat_map paragraphs_of content). induction ts as [|t ts IH]; intros ws E; inversion E; subst; constructor; [assumption|apply IH; assumption].
Qed.
Print Assumptions C84_paragraphs.

Lemma formats_from kind c ms fs : formats_on kind c ms fs -> forall f, In f fs -> exists s, In s ms /\ st_color f = sh_color s.
Proof.
  induction 1 as [|s ms fs H F IH|s ms fs H F IH]; intros f Hf; [destruct Hf| |destruct (IH f Hf) as (x & Hx & E); exists x; split; [right; exact Hx|exact E]].
  destruct Hf as [<-|Hf]; [exists s; split; [left; reflexivity|reflexivity]|]. destruct (IH f Hf) as (x & Hx & E). exists x. split; [right; exact Hx|exact E].
Qed.
Lemma marked_plain names kind ms ls ls' : (forall s, In s ms -> color_value (sh_color s)) -> Forall2 (line_at kind ms []) ls ls' ->
  (forall l s, In l ls -> In s (ln_spans l) -> plain names s) -> forall l s, In l ls' -> In s (ln_spans l) -> plain names s.
Proof.
  intros Hc F H. induction F as [|l0 l' ls ls' L F IH]; intros l s Hl Hs; [destruct Hl|]. destruct Hl as [<-|Hl]; [|apply (IH (fun x y Hx => H x y (or_intror Hx)) l s Hl Hs)].
  destruct L as (_ & _ & _ & _ & xss & Fx & E). rewrite E in Hs. assert (H0 : forall x, In x (ln_spans l0) -> plain names x) by (intros x; apply H; left; reflexivity). clear - Hc Fx Hs H0.
  induction Fx as [|x xs ys yss P Fx IH]; [destruct Hs|]. cbn [concat] in Hs. apply in_app_or in Hs. destruct Hs as [Hs|Hs]; [|apply IH; [exact Hs|intros y Hy; apply H0; right; exact Hy]].
  specialize (H0 x (or_introl eq_refl)). destruct x as [t|k b]; cbn [piece] in P; [|subst xs; destruct Hs as [<-|[]]; exact H0].
  destruct P as (ps & -> & _ & G). apply in_map_iff in Hs. destruct Hs as (p & <- & Hp). rewrite Forall_forall in G. destruct (G p Hp) as (_ & _ & Ea & Ic & St & _).
  destruct H0 as ((U1 & U2) & W & C). split; [|split].
  - cbn [usual] in *. rewrite Ea. split; assumption.
  - cbn [writable] in *. intros U. apply W. unfold unwritable in *. rewrite Ea in U. destruct U as [(c & Hcc & X)|U]; [|right; exact U]. left. exists c. split; [|exact X].
    apply in_app_or in Hcc. apply in_or_app. destruct Hcc as [Hcc|Hcc]; [left|right; exact Hcc]. unfold ts_text in *. apply in_map_iff in Hcc. destruct Hcc as (ch & <- & Hch). apply in_map, Ic, Hch.
  - intros Nc. destruct (ts_chars p) as [|ch cs] eqn:Ech; [contradiction|].
    assert (Nt : ts_chars t <> []) by (intros Z; specialize (Ic ch (or_introl eq_refl)); rewrite Z in Ic; destruct Ic).
    destruct (St ch (or_introl eq_refl)) as (fs & Ff & Es). intros st Hst. rewrite Es in Hst. apply in_app_or in Hst. destruct Hst as [Hst|Hst]; [exact (C Nt st Hst)|].
    destruct (formats_from _ _ _ _ Ff st Hst) as (s & Hs & ->). apply Hc, Hs.
Qed.
(** The same for pages of paragraphs with links, underlines, strikes and highlights (C75): each character has the look of the character
    of the page with the formats of the drawings and links over it. *)
Theorem C84_formatted names uris order rorder ids pm fuel (pgs : list (rawpage * list tblock * (shape -> rtype))) tpl :
  (forall l, Permutation l (order l)) -> 1 # 1000000 < p_line_overlap pm -> 0 < p_float_layout pm -> pgs <> [] ->
  Forall (fun '(r, ts, kind) => paragraph_page (without_drawings r) ts /\ plain_text names ts /\ forall c, clean_page order pm r = Some c ->
    one_column (PageModel.working_bbox (r_width r) (r_height r) (page_margin pm r c)) ts /\ formats_only kind c ts /\ forall s, In s (c_shapes c) -> color_value (sh_color s)) pgs ->
  exists ps secs body, Forall2 (fun '(r, _, _) p => parse_page order rorder ids pm (S fuel) r = Ok p) pgs ps /\ document_try names uris tpl ps = (secs, body) /\
    Forall2 (fun content '(r, ts, kind) => exists c, clean_page order pm r = Some c /\
      Forall2 (fun t w => exists gs, Forall2 (formatted kind (in_turn (c_shapes c))) (line_glyphs (b_lines t)) gs /\ Forall2 (looks_as names uris) gs (word_seen names uris w)) ts (flat_map paragraphs_of content)) (dsections [] body) pgs.
Proof.
  intros Ho T Tf Ne F.
  set (Q := fun (pg : rawpage * list tblock * (shape -> rtype)) (us : list tblock) => let '(r, ts, kind) := pg in exists c, clean_page order pm r = Some c /\
      Forall2 (fun t u => Forall2 (line_at kind (in_turn (c_shapes c)) []) (b_lines t) (b_lines u)) ts us).
  assert (G : exists ps uss, Forall2 (fun '(r, _, _) p => parse_page order rorder ids pm (S fuel) r = Ok p) pgs ps /\ Forall2 Q pgs uss /\
    Forall2 (fun p us => Forall2 spaced us (sp_blocks p) /\ (forall u l s, In u us -> In l (b_lines u) -> In s (ln_spans l) -> plain names s)) ps uss).
  { clear Ne. induction F as [|[[r ts] kind] pgs (Pp & Pl & Oc) F IH]; [exists [], []; split; [|split]; constructor|]. destruct IH as (ps & uss & A & B & C).
    destruct (page_marked order rorder ids pm fuel kind r ts Ho T Tf Pp (fun c Hc => conj (proj1 (Oc c Hc)) (proj1 (proj2 (Oc c Hc))))) as (c & ss & bs' & Cl & E & Sp & Fm).
    eexists (_ :: ps), (bs' :: uss). split; [constructor; [exact E|exact A]|]. split; [constructor; [exists c; split; [exact Cl|exact Fm]|exact B]|]. constructor; [|exact C].
    cbn [sp_blocks]. split; [exact Sp|]. destruct (Oc c Cl) as (_ & _ & Hc).
    assert (Hc' : forall s, In s (in_turn (c_shapes c)) -> color_value (sh_color s)) by (intros s Hs; apply Hc; exact (in_turn_in _ s Hs)).
    clear - Fm Pl Hc'. unfold plain_text in Pl. induction Fm as [|t u ts us Ft Fm IH]; [intros ? ? ? []|]. intros v l s [<-|Hv] Hl Hs.
    - refine (marked_plain names kind _ _ _ Hc' Ft _ l s Hl Hs). intros m y Hm Hy. apply (Pl m y); [|exact Hy]. unfold lines_in. cbn [flat_map]. apply in_or_app. left. exact Hm.
    - refine (IH _ v l s Hv Hl Hs). intros m y Hm Hy. apply (Pl m y); [|exact Hy]. unfold lines_in in *. cbn [flat_map]. apply in_or_app. right. exact Hm. }
  destruct G as (ps & uss & A & B & C). assert (Np : ps <> []) by (destruct A; congruence). destruct (document_kept names uris tpl ps _ Np C) as (body & D & K).
  exists ps, (map sp_section ps), body. split; [exact A|]. split; [exact D|].
  clear - B K. revert K. generalize (dsections [] body). induction B as [|[[r ts] kind] us pgs uss (c & Cl & Fm) B IH]; intros cs K; inversion K as [|content ? cs' ? E K']; subst; constructor; [|apply IH, K'].
  exists c. split; [exact Cl|]. clear - E Fm. revert E. generalize (flat_map paragraphs_of content). induction Fm as [|t u ts us Ft Fm IH]; intros ws E; inversion E as [|? w ? ws' Ew E']; subst; constructor; [|apply IH; assumption].
  exists (line_glyphs (b_lines u)). split; [exact (lines_glyphs_at _ _ _ _ Ft)|exact Ew].
Qed.
Print Assumptions C84_formatted.
(** The same in the cells of a ruled table (C76), and in the paragraphs above and beneath it. *)
Theorem C84_table names uris order rorder ids pm d p g r above cells below fuel tpl : (forall l, Permutation l (order l)) -> table_settings pm d g ->
  table_page (p_image_gap pm) (p_line_merging pm) p g r above cells below -> plain_text names (above ++ in_grid g cells ++ below) ->
  (forall c, clean_page order pm p = Some c -> across_middle (PageModel.working_bbox (r_width p) (r_height p) (page_margin pm p c)) g /\ sharing g r (c_blocks c)) ->
  exists pg secs body ind hs t, parse_page order rorder ids pm (S (S fuel)) p = Ok pg /\ document_try names uris tpl [pg] = (secs, body) /\
    In (DTable ind hs t) body /\ table_shown g r (r_shapes p) cells t /\
    Forall2 (fun x w => Forall2 (looks_as names uris) (line_glyphs (b_lines x)) (word_seen names uris w)) (above ++ below) (flat_map paragraphs_of body) /\
    forall a b i j m n, (a < g_rows g)%nat -> (b < g_cols g)%nat -> r a b = (i, j, m, n) -> exists c, WordSpec.over t i j = Some (j, c) /\
      Forall2 (fun x w => Forall2 (looks_as names uris) (line_glyphs (b_lines x)) (word_seen names uris w)) (cells i j) (flat_map paragraphs_of (WordModel.t_body c)).
Proof.
  intros Ho Set_ Pg Pl Ac. destruct (page_shown order rorder ids pm Ho d p g r above below cells Set_ Pg fuel tpl Ac) as (c & pg & body & ind & hs & t & A1 & A2 & A3 & A4 & A5 & A6 & A7 & A8 & A9 & Cw & Reg & Sp & sa & before & srows & sb & Eb & Sa & Sb & _).
  assert (D : document_docx tpl [pg] = Some (document_try names uris tpl [pg])).
  { apply CutProps.C81_all_written; [intros q [<-|[]]; split; [exact Reg|apply Sp; intros l s Hl Hs; apply (Pl l s Hl Hs)]|intros q s [<-|[]]; apply (Sp (writable names)); intros l x Hl Hx; apply (Pl l x Hl Hx)]. }
  rewrite A3 in D. apply (f_equal (fun o => match o with Some x => x | None => ([], []) end)) in D. cbv beta iota in D. eexists pg, _, body, ind, hs, t. split; [exact A2|]. split; [symmetry; exact D|]. split; [exact A7|]. split; [exact A8|].
  assert (Un : forall ts ws, Forall2 (fun u w => Forall2 (looks_as names uris) (line_glyphs (b_lines u)) (word_seen names uris w)) (map para_block ts) ws ->
    Forall2 (fun u w => Forall2 (looks_as names uris) (line_glyphs (b_lines u)) (word_seen names uris w)) ts ws).
  { clear. induction ts as [|x ts IH]; intros ws F; inversion F; subst; constructor; [assumption|apply IH; assumption]. }
  assert (In_ : forall ts, incl ts (above ++ in_grid g cells ++ below) -> forall u l s, In u (map para_block ts) -> In l (b_lines u) -> In s (ln_spans l) -> plain names s).
  { intros ts I u l s Hu Hl Hs. apply in_map_iff in Hu. destruct Hu as (x & <- & Hx). apply (Pl l s); [|exact Hs]. apply in_flat_map. exists x. split; [apply I, Hx|exact Hl]. }
  split.
  2:{ intros a b i j m n Ha Hb Er. destruct (Cw a b i j m n Ha Hb Er) as (tc & bc & bls & Ov & Bb & Wd & (Fs & _) & Ep). exists tc. split; [exact Ov|]. rewrite Ep. apply Un. refine (proj1 (blocks_kept names uris _ _ (In_ _ _) Fs)).
    pose proof Pg as (_ & _ & _ & _ & _ & _ & Ti & _). destruct (GridProof6.tile_extent g r Ti a b i j m n Ha Hb Er) as (_ & Hi & Hj & _).
    intros x Hx. apply in_or_app. right. apply in_or_app. left. apply TabProof5.in_grid_In. exists i, j. split; [exact Hi|]. split; [exact Hj|exact Hx]. }
  destruct (document_pars tpl [pg] _ body ltac:(discriminate) A3) as (_ & F). rewrite A5 in F. inversion F as [|? ? ? ? E _]; subst. rewrite E, Eb, flat_map_app. cbn [flat_map PlaceProof2.block_par app]. apply Forall2_app2; apply Un.
  - refine (proj1 (blocks_kept names uris _ _ (In_ _ _) Sa)). intros x Hx. apply in_or_app. left. exact Hx.
  - refine (proj1 (blocks_kept names uris _ _ (In_ _ _) Sb)). intros x Hx. apply in_or_app. right. apply in_or_app. right. exact Hx.
Qed.
Print Assumptions C84_table.

(** Pages that meet the hypotheses: those of C75 and C76, set in Arial of 10 pt in black. *)
Definition lk_names (n : nat) : list Z := [65; 114; 105; 97; 108]%Z.
Definition lk_uris (n : nat) : list Z := [104; 58; 48 + Z.of_nat n]%Z.
Definition plainb (names : nat -> list Z) (s : TextModel.span) : bool :=
  match s with
  | TextModel.SText t => qlt (1 # 4) (TextModel.at_size (TextModel.ts_attrs t)) && ((0 <=? TextModel.at_color (TextModel.ts_attrs t)) && (TextModel.at_color (TextModel.ts_attrs t) <? 16777216))%Z &&
      forallb xml_char (ts_text t ++ names (TextModel.at_font (TextModel.ts_attrs t))) && forallb (fun st => ((0 <=? TextModel.st_color st) && (TextModel.st_color st <? 16777216))%Z) (TextModel.ts_style t)
  | TextModel.SImage _ _ => true
  end.
Lemma plainb_ok names ts : forallb (fun b => forallb (fun l => forallb (plainb names) (ln_spans l)) (b_lines b)) ts = true -> plain_text names ts.
Proof.
  intros H l s Hl Hs. apply in_flat_map in Hl. destruct Hl as (b & Hb & Hl). rewrite forallb_forall in H. specialize (H b Hb). cbv beta in H. rewrite forallb_forall in H. specialize (H l Hl). cbv beta in H. rewrite forallb_forall in H. specialize (H s Hs). clear - H.
  destruct s as [t|k b]; [|split; [exact I|split; exact I]]. unfold plainb in H. rewrite !andb_true_iff, qlt_iff, Z.leb_le, Z.ltb_lt in H. destruct H as (((H1 & H2 & H3) & H4) & H5). rewrite forallb_forall in H4, H5.
  unfold plain, usual, writable, unwritable, color_value. split; [split; [lra|lia]|]. split.
  - intros [(c & Hc & X)|X]; [rewrite (H4 c Hc) in X; discriminate X|lra].
  - intros _ st Hst. specialize (H5 st Hst). cbv beta in H5. rewrite andb_true_iff, Z.leb_le, Z.ltb_lt in H5. lia.
Qed.
(** What is seen of the page of C75: each character with its size in half points, the colours of its underlines and highlights, and its links. *)
Definition lk_show (w : wordseen) : Z * (list Z * list Z * list Z * list (list Z)) :=
  match w with WordChar c r => (c, (sizes r, underlines 0 r, marks r, map fst (run_links r))) | WordPicture _ => (0%Z, ([], [], [], [])) end.
Definition lk_seen (r : rawpage) : list (list (Z * (list Z * list Z * list Z * list (list Z)))) :=
  match wh_parse r with
  | Ok p => map (map lk_show) (map (word_seen lk_names lk_uris) (flat_map paragraphs_of (snd (document_try lk_names lk_uris (DocxModel.mkSection 1 1 []) [p]))))
  | _ => []
  end.
Example C84_formatted_nonvacuous : plain_text lk_names [fm_head; fm_body; fm_foot] /\ (forall c, clean_page wh_order default_params fm_page = Some c -> forall s, In s (c_shapes c) -> color_value (sh_color s)) /\
  lk_seen fm_page =
   [[(65, ([20], [], [], [])); (66, ([20], [], [], []))];
    [(97, ([20], [], [], [])); (98, ([20], [0], [], [[104; 58; 56]])); (99, ([20], [0], [], [[104; 58; 56]])); (100, ([20], [], [], [])); (101, ([20], [], [], [])); (102, ([20], [], [255], [])); (103, ([20], [], [255], [])); (104, ([20], [], [], [])); (105, ([20], [], [], [])); (106, ([20], [], [], [])); (107, ([20], [], [], [])); (108, ([20], [], [], [])); (109, ([20], [], [], []))];
    [(120, ([20], [], [], [])); (121, ([20], [], [], [[104; 58; 57]])); (122, ([20], [], [], [[104; 58; 57]])); (123, ([20], [], [], []))]]%Z.
Proof.
  split; [apply plainb_ok; vm_compute; reflexivity|]. split.
  - intros c E. vm_compute in E. injection E as <-. intros s H. cbn [c_shapes] in H. repeat (destruct H as [<-|H]; [split; vm_compute; congruence|]). destruct H.
  - vm_compute. reflexivity.
Qed.
Example C84_table_nonvacuous : plain_text lk_names ([wh_head] ++ in_grid tb_grid tb_cells ++ [tb_foot]) /\ plain_text lk_names [wh_head; wh_body; wh_foot].
Proof. split; apply plainb_ok; vm_compute; reflexivity. Qed.
