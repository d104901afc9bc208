(** The paragraphs of a document, as written. *)
From Verif Require Import TreeSpec TreeProof TreeProof2 TreeProof3 TreeProof4 TreeProof5 ParaSpec PlaceSpec.
From Verif Require DocxModel DocxSpec DocxProof DocxProps.
From Coq Require Import Lia.
Open Scope nat_scope.

Definition made_par (m : made) : list wordp := match m with MText w => [w] | MTable _ _ _ => [] end.
Definition block_par (b : sblock) : list wordp := match b with ST t => [text_docx t] | STable _ _ => [] end.
Definition npar (all : list made) (x : nat * bool) : list wordp :=
  match nth_error all (fst x) with Some (MText w) => if snd x then [] else [w] | _ => [] end.
Lemma expand_par all i : paragraphs_of (expand all i) = flat_map (npar all) (DocxSpec.shows i).
Proof.
  destruct i as [k fs|id].
  - destruct k; try reflexivity. cbn [DocxSpec.shows flat_map]. rewrite app_nil_r. unfold npar. cbn [fst snd expand]. destruct (nth_error all id) as [[w|b hs g]|]; reflexivity.
  - cbn [DocxSpec.shows flat_map]. rewrite app_nil_r. unfold npar. cbn [fst snd expand]. destruct (nth_error all id) as [[w|b hs g]|]; reflexivity.
Qed.
Lemma expand_pars all l : flat_map paragraphs_of (map (expand all) l) = flat_map (npar all) (flat_map DocxSpec.shows l).
Proof. induction l as [|i t IH]; [reflexivity|]. cbn [map flat_map]. rewrite flat_map_app, expand_par, IH. reflexivity. Qed.
Lemma npar_number all pre ms post : all = pre ++ ms ++ post ->
  flat_map (npar all) (DocxSpec.should_show (number (List.length pre) ms)) = flat_map made_par ms.
Proof.
  revert pre. induction ms as [|m t IH]; intros pre E; [reflexivity|].
  cbn [number]. unfold DocxSpec.should_show. cbn [filter].
  assert (N : nth_error all (List.length pre) = Some m) by (rewrite E, nth_error_app2, Nat.sub_diag by lia; reflexivity).
  specialize (IH (pre ++ [m])). rewrite app_length, Nat.add_1_r in IH. unfold DocxSpec.should_show in IH.
  assert (E' : all = (pre ++ [m]) ++ t ++ post) by (rewrite E, <- app_assoc; reflexivity). specialize (IH E').
  destruct m as [w|b hs g]; cbn [made_type DocxModel.is_text_image DocxModel.is_table DocxModel.b_type orb map flat_map DocxModel.b_id]; unfold npar at 1; cbn [fst snd]; rewrite N; cbn [made_par app]; [f_equal|]; exact IH.
Qed.
Lemma written_par b m : block_docx b = Some m -> made_par m = block_par b.
Proof.
  destruct b as [t|before rows]; intros E.
  - cbn in E. injection E as <-. reflexivity.
  - rewrite table_docx in E. match type of E with obind ?x _ = _ => destruct x as [src|] end; [|discriminate E]. cbn [obind] in E. destruct (word_table dnewp dnoruns src) as [[hs g]|]; [|discriminate E]. injection E as <-. reflexivity.
Qed.
Lemma pages_pars : forall ps mss pre all contents, Forall2 (fun p ms => Forall2 (fun b m => block_docx b = Some m) (sp_blocks p) ms) ps mss ->
  all = pre ++ concat mss ->
  Forall2 (fun content p => flat_map DocxSpec.shows content = DocxSpec.should_show (DocxModel.p_blocks p)) contents (number_pages (List.length pre) (combine ps mss)) ->
  Forall2 (fun content p => flat_map paragraphs_of content = flat_map block_par (sp_blocks p)) (map (map (expand all)) contents) ps.
Proof.
  induction ps as [|p ps IH]; intros mss pre all contents F Ea C; inversion F as [|? ms ? mss' F1 F2]; subst.
  - cbn in C. inversion C; subst. constructor.
  - cbn [combine number_pages] in C. inversion C as [|content ? contents' ? C1 C2]; subst. cbn [map]. constructor.
    + rewrite expand_pars, C1. cbn [DocxModel.p_blocks]. rewrite (npar_number _ pre ms (concat mss') (eq_refl : pre ++ concat (ms :: mss') = pre ++ ms ++ concat mss')).
      clear - F1. induction F1 as [|b m bs ms E _ IHb]; [reflexivity|]. cbn [flat_map]. rewrite IHb, (written_par b m E). reflexivity.
    + apply (IH mss' (pre ++ ms)); [exact F2|cbn [concat]; rewrite app_assoc; reflexivity|]. rewrite app_length. exact C2.
Qed.
(** Whatever the pages: the paragraphs of each section are those of the text blocks of its page. *)
Lemma document_pars tpl ps secs body : ps <> [] -> document_docx tpl ps = Some (secs, body) ->
  secs = map sp_section ps /\ Forall2 (fun content p => flat_map paragraphs_of content = flat_map block_par (sp_blocks p)) (dsections [] body) ps.
Proof.
  intros Hne E. split; [exact (proj1 (document_entries tpl ps secs body Hne E))|]. destruct (document_inv tpl ps _ E) as (mss & F & Eo). injection Eo as -> ->.
  set (pages := number_pages 0 (combine ps mss)).
  assert (Def : forall p b, In p pages -> In b (DocxModel.p_blocks p) -> DocxModel.b_type b <> DocxModel.UNDEFINED) by (intros p b; apply pages_defined).
  assert (Hp : pages <> []). { unfold pages. clear - Hne F. destruct F as [|p ms ps mss F1 F2]; [contradiction|]. cbn [combine number_pages]. congruence. }
  destruct (DocxProps.C34_document tpl pages Hp Def) as (_ & _ & Sh).
  change (@nil ditem) with (map (expand (concat mss)) []). rewrite expand_sections.
  apply (pages_pars ps mss [] (concat mss)); [exact F|reflexivity|exact Sh].
Qed.
