(** Paragraphs and tables of a document. *)
From Verif Require Import TreeSpec TreeProof TreeProof2 TreeProof3 TreeProof4 ParaSpec.
From Verif Require DocxModel DocxSpec DocxProof DocxProps.
From Coq Require Import Lia.
Open Scope nat_scope.

Definition made_entry (m : made) : option (list (glyph * list style)) := match m with MText w => Some (styled (item_spans (wp_items w))) | MTable _ _ _ => None end.
Definition nentry (all : list made) (x : nat * bool) : list (option (list (glyph * list style))) :=
  match nth_error all (fst x) with Some (MText w) => if snd x then [] else [made_entry (MText w)] | Some _ => if snd x then [None] else [] | None => [] end.
Lemma expand_entry all i : entry (expand all i) = flat_map (nentry all) (DocxSpec.shows i).
Proof.
  destruct i as [k fs|id].
  - destruct k; try reflexivity. cbn [DocxSpec.shows flat_map]. rewrite app_nil_r. unfold nentry. cbn [fst snd expand]. destruct (nth_error all id) as [[w|b hs g]|]; reflexivity.
  - cbn [DocxSpec.shows flat_map]. rewrite app_nil_r. unfold nentry. cbn [fst snd expand]. destruct (nth_error all id) as [[w|b hs g]|]; reflexivity.
Qed.
Lemma expand_entries all l : flat_map entry (map (expand all) l) = flat_map (nentry all) (flat_map DocxSpec.shows l).
Proof. induction l as [|i t IH]; [reflexivity|]. cbn [map flat_map]. rewrite flat_map_app, expand_entry, IH. reflexivity. Qed.
Lemma nentry_number all pre ms post : all = pre ++ ms ++ post ->
  flat_map (nentry all) (DocxSpec.should_show (number (List.length pre) ms)) = map made_entry ms.
Proof.
  revert pre. induction ms as [|m t IH]; intros pre E; [reflexivity|].
  cbn [number]. unfold DocxSpec.should_show. cbn [filter].
  assert (N : nth_error all (List.length pre) = Some m) by (rewrite E, nth_error_app2, Nat.sub_diag by lia; reflexivity).
  specialize (IH (pre ++ [m])). rewrite app_length, Nat.add_1_r in IH. unfold DocxSpec.should_show in IH.
  assert (E' : all = (pre ++ [m]) ++ t ++ post) by (rewrite E, <- app_assoc; reflexivity). specialize (IH E').
  destruct m as [w|b hs g]; cbn [made_type DocxModel.is_text_image DocxModel.is_table DocxModel.b_type orb map flat_map DocxModel.b_id]; unfold nentry at 1; cbn [fst snd]; rewrite N; cbn [app]; f_equal; exact IH.
Qed.
Lemma written_entry b m : block_docx b = Some m -> made_entry m = block_entry b.
Proof.
  destruct b as [t|before rows]; intros E.
  - cbn in E. injection E as <-. cbn [made_entry block_entry]. f_equal. unfold text_docx, make_paragraph. cbn [wp_items]. rewrite write_spans. unfold line_glyphs.
    clear. induction (st_lines t) as [|l ls IHl]; [reflexivity|]. cbn [flat_map]. unfold styled in *. rewrite flat_map_app, IHl. reflexivity.
  - rewrite table_docx in E. destruct (all_some _) as [src|]; [|discriminate E]. cbn [obind] in E. destruct (word_table dnewp dnoruns src) as [[hs g]|]; [|discriminate E]. injection E as <-. reflexivity.
Qed.
Lemma pages_entries : forall ps mss pre all contents, Forall2 (fun p ms => Forall2 (fun b m => block_docx b = Some m) (sp_blocks p) ms) ps mss ->
  all = pre ++ concat mss ->
  Forall2 (fun content p => flat_map DocxSpec.shows content = DocxSpec.should_show (DocxModel.p_blocks p)) contents (number_pages (List.length pre) (combine ps mss)) ->
  Forall2 (fun content p => flat_map entry content = map block_entry (sp_blocks p)) (map (map (expand all)) contents) ps.
Proof.
  induction ps as [|p ps IH]; intros mss pre all contents F Ea C; inversion F as [|? ms ? mss' F1 F2]; subst.
  - cbn in C. inversion C; subst. constructor.
  - cbn [combine number_pages] in C. inversion C as [|content ? contents' ? C1 C2]; subst. cbn [map]. constructor.
    + rewrite expand_entries, C1. cbn [DocxModel.p_blocks]. rewrite (nentry_number _ pre ms (concat mss') (eq_refl : pre ++ concat (ms :: mss') = pre ++ ms ++ concat mss')).
      clear - F1. induction F1 as [|b m bs ms E _ IHb]; [reflexivity|]. cbn [map]. rewrite IHb, (written_entry b m E). reflexivity.
    + apply (IH mss' (pre ++ ms)); [exact F2|cbn [concat]; rewrite app_assoc; reflexivity|]. rewrite app_length. exact C2.
Qed.
Lemma pages_incl : forall ps mss pre all contents, Forall2 (fun p ms => Forall2 (fun b m => block_docx b = Some m) (sp_blocks p) ms) ps mss ->
  all = pre ++ concat mss ->
  Forall2 (fun content p => flat_map DocxSpec.shows content = DocxSpec.should_show (DocxModel.p_blocks p)) contents (number_pages (List.length pre) (combine ps mss)) ->
  Forall2 (fun content p => incl (flat_map ditem_text content) (flat_map sblock_text (sp_blocks p))) (map (map (expand all)) contents) ps.
Proof.
  induction ps as [|p ps IH]; intros mss pre all contents F Ea C; inversion F as [|? ms ? mss' F1 F2]; subst.
  - cbn in C. inversion C; subst. constructor.
  - cbn [combine number_pages] in C. inversion C as [|content ? contents' ? C1 C2]; subst. cbn [map]. constructor.
    + rewrite expand_text, C1. cbn [DocxModel.p_blocks]. rewrite (named_number _ pre ms (concat mss') (eq_refl : pre ++ concat (ms :: mss') = pre ++ ms ++ concat mss')).
      clear - F1. induction F1 as [|b m bs ms E _ IHb]; [intros x []|]. cbn [flat_map]. apply incl_app; [apply incl_appl, block_incl, E|apply incl_appr, IHb].
    + apply (IH mss' (pre ++ ms)); [exact F2|cbn [concat]; rewrite app_assoc; reflexivity|]. rewrite app_length. exact C2.
Qed.
Lemma document_entries tpl ps secs body : ps <> [] -> document_docx tpl ps = Some (secs, body) ->
  secs = map sp_section ps /\
  Forall2 (fun content p => flat_map entry content = map block_entry (sp_blocks p)) (dsections [] body) ps /\
  Forall2 (fun content p => incl (flat_map ditem_text content) (flat_map sblock_text (sp_blocks p))) (dsections [] body) ps /\
  flat_map floats_of body = flat_map sp_floats ps.
Proof.
  intros Hne E. destruct (document_inv tpl ps _ E) as (mss & F & Eo). injection Eo as -> ->.
  set (pages := number_pages 0 (combine ps mss)).
  assert (Def : forall p b, In p pages -> In b (DocxModel.p_blocks p) -> DocxModel.b_type b <> DocxModel.UNDEFINED) by (intros p b; apply pages_defined).
  assert (Fst : map fst (combine ps mss) = ps) by (apply (combine_fst _ _ _ F)).
  assert (Hp : pages <> []). { unfold pages. clear - Hne F. destruct F as [|p ms ps mss F1 F2]; [contradiction|]. cbn [combine number_pages]. congruence. }
  destruct (DocxProps.C34_document tpl pages Hp Def) as (_ & _ & Sh). pose proof (proj1 (DocxProps.C46_one_section_per_page tpl pages Hp Def)) as Sec. pose proof (DocxProps.C47_images_conserved tpl pages Def) as Im.
  destruct (pages_sections (combine ps mss) 0) as (S1 & S2). fold pages in S1, S2.
  split; [rewrite Sec, S1, <- (map_map fst sp_section), Fst; reflexivity|].
  change (@nil ditem) with (map (expand (concat mss)) []). rewrite expand_sections.
  split; [apply (pages_entries ps mss [] (concat mss)); [exact F|reflexivity|exact Sh]|]. split; [apply (pages_incl ps mss [] (concat mss)); [exact F|reflexivity|exact Sh]|].
  assert (Fl : flat_map floats_of (map (expand (concat mss)) (DocxModel.d_body (DocxModel.make_pages tpl pages))) = flat_map DocxSpec.images_of (DocxModel.d_body (DocxModel.make_pages tpl pages))).
  { clear. induction (DocxModel.d_body (DocxModel.make_pages tpl pages)) as [|i t IH]; [reflexivity|]. cbn [map flat_map]. rewrite expand_floats, IH. reflexivity. }
  rewrite Fl, Im. rewrite !flat_map_concat_map, S2, <- (map_map fst sp_floats), Fst. reflexivity.
Qed.
