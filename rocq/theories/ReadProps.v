(** C89: [extract_tables] from the raw pages of a pdf, by any selection of pages. *)
From Verif Require ConverterModel ConverterSpec ConverterProps ExtractModel ExtractSpec ExtractProps.
From Verif Require Import TreeProof WholeProof6 WholeProof4 WholeProof8 TabProof11 LayoutProps GridProps WholeProps TabProps PicProps MixProps.
From Verif Require Import MixModel MixProof ReadModel ReadProof ReadSpec.
From Verif Require Import GridSpec CleanModel TreeSpec WholeSpec MixSpec ReadSpec.
From Verif Require Import TreeModel LayoutModel WholeModel CleanModel.
From Coq Require Import Lia Permutation.
Notation length := List.length.
Open Scope Q_scope.

(** A pdf whose selected pages are pages of paragraphs and pictures, pages with a ruled table, pages in two columns (with paragraphs above and below them), or cannot be parsed: [extract_tables]
    does not fail; it returns one list of rows for each ruled table on a page selected, in the order of the pages, and no other, unless
    tables without borders are asked for: then also the columns of each page in two columns, as one row of two strings. The list of a ruled table has the rows and columns of the grid, the text of each cell at the first place of the cell,
    and None at the others. *)
Theorem C89_extract order rorder ids pm fuel es rs start end_ pages plans : (forall l, Permutation l (order l)) ->
  1 # 1000000 < p_line_overlap pm -> 0 < p_float_layout pm -> 0 <= p_image_gap pm ->
  let sel := ConverterModel.page_indexes start end_ pages (Z.of_nat (length rs)) in
  sel <> [] ->
  (forall i r, In (Z.of_nat i) sel -> nth_error rs i = Some r ->
    match plans i with Some x => fits order pm r x | None => forall p, parse_page order rorder ids pm (S (S fuel)) r <> Ok p end) ->
  Forall2 plan_read (table_pages es (to_show (length rs) sel plans)) (extract_pdf order rorder ids pm (S (S fuel)) es rs start end_ pages).
Proof.
  intros Ho T Tf Gp sel Hs Fit. set (tpl := DocxModel.mkSection 1 1 []). unfold extract_pdf.
  destruct (step_tables (ConverterModel.fresh (length rs) empty_page) start end_ pages (fun _ => page_outcome order rorder ids pm (S (S fuel)) rs)) as (cs & E & C). rewrite E.
  assert (D : to_show (length rs) sel plans = [] \/ to_show (length rs) sel plans <> []) by (destruct (to_show (length rs) sel plans); [left; reflexivity|right; discriminate]). destruct D as [N|N].
  - pose proof (ConverterProps.C05_fresh_convert _ start end_ pages (page_outcome order rorder ids pm (S (S fuel)) rs) (fun _ => true) (length rs) empty_page Hs) as F. cbv zeta in F.
    pose proof (good_pages order rorder ids pm fuel tpl rs start end_ pages plans Ho T Tf Gp Fit) as G. fold sel in G, F. rewrite N in G |- *. unfold table_pages. cbn [map filter].
    match type of C with match ?x with _ => _ end => destruct x as [| |d| |] end; try (rewrite C; constructor). destruct F as (Gn & _). destruct (Gn G).
  - destruct (finished_pages order rorder ids pm fuel tpl rs start end_ pages plans Ho T Tf Gp Hs Fit N) as (d & rxs & Ed & _ & F1 & F2). fold sel in F1. rewrite Ed in C. subst cs.
    clear - F1 F2 Ho T Tf Gp tpl. revert F1 F2. generalize (map (@ConverterModel.d_content _) d). intros cs F1. revert cs. induction F1 as [|ix rx l rxs (_ & X) F1 IH]; intros cs F2; inversion F2 as [|? p ? cs' (Fi & Pa & _) F2']; subst; [constructor|].
    cbn [flat_map]. pose proof (plan_reads order rorder ids pm fuel (fst rx) (snd rx) p tpl Ho T Tf Gp Fi Pa es) as R. rewrite X in R. unfold table_pages in *. cbn [map filter]. destruct (snd ix) as [ts fs|g r above cells below|above lc rc below].
    + rewrite R. apply IH, F2'.
    + destruct R as (t & -> & Rt). cbn [app]. constructor; [exact Rt|apply IH, F2'].
    + destruct es; [destruct R as (t & -> & Rt); cbn [app]; constructor; [exact Rt|apply IH, F2']|rewrite R; apply IH, F2'].
Qed.
Print Assumptions C89_extract.

(** The document of C88: pages 3, 2 and 0 selected. *)
Example C89_extract_nonvacuous : (forall any, let sel := ConverterModel.page_indexes 0 None [3; 2; 0; 7]%Z (Z.of_nat (length (mx_pdf any))) in
    forall i r, In (Z.of_nat i) sel -> nth_error (mx_pdf any) i = Some r ->
      match mx_plans i with Some x => fits wh_order default_params r x | None => forall p, parse_page wh_order (fun l => l) S default_params 3 r <> Ok p end) /\
  length (table_pages false (to_show 4 [3; 2; 0]%Z mx_plans)) = 1%nat /\ length (table_pages true (to_show 4 [3; 2; 0]%Z mx_plans)) = 2%nat /\
  extract_pdf wh_order (fun l => l) S default_params 3 false (mx_pdf (mkRaw 100 100 [] [])) 0 None [3; 2; 0; 7]%Z = [[[Some [71]; None]; [Some [72; 10; 73]; Some [74; 10; 75]]]]%Z /\
  extract_pdf wh_order (fun l => l) S default_params 3 true (mx_pdf (mkRaw 100 100 [] [])) 0 None [3; 2; 0; 7]%Z = [[[Some [71]; None]; [Some [72; 10; 73]; Some [74; 10; 75]]]; [[Some [65; 10; 66; 10; 67]; Some [68; 10; 69]]]]%Z.
Proof. split; [intros any; apply (C88_convert_nonvacuous any)|]. split; [reflexivity|]. split; [reflexivity|]. split; vm_compute; reflexivity. Qed.

(** Finding: only tables at the top level are looked for. If the page is set in two columns, all is in the cells of the layout table,
    and no table is returned, although the page is parsed with it: here a ruled table in the right column. *)
Definition rd_drawn : list (Z * Z * Z * Z) := [(320, 100, 540, 100); (320, 160, 540, 160); (320, 100, 320, 160); (540, 100, 540, 160); (430, 100, 430, 160)]%Z.
Definition rd_page : rawpage := mkRaw 600 800 [tb_block 71 11 50 100 250 115; tb_block 72 12 50 130 250 145; tb_block 73 13 330 120 420 135; tb_block 74 14 440 120 530 135] (gr_lines rd_drawn).
Definition rd_tables (p : spage) : list (list (list (option (list Z)))) :=
  flat_map (fun b => match b with
    | STable _ rows => flat_map (fun row : Q * _ => flat_map (fun c => flat_map (fun b' => match b' with STable _ rows' => [ExtractModel.table_text rows'] | ST _ => [] end) (snd c)) (snd row)) rows
    | ST _ => [] end) (sp_blocks p).
Theorem C89_columns_refuted : exists p, wh_parse rd_page = Ok p /\ rd_tables p = [[[Some [73]; Some [74]]]]%Z /\
  extract_pdf wh_order (fun l => l) S default_params 3 false [rd_page] 0 None [] = [].
Proof. eexists. split; [vm_compute; reflexivity|]. split; vm_compute; reflexivity. Qed.
Print Assumptions C89_columns_refuted.
