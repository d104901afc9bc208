(** Proofs for C89. *)
From Verif Require ConverterModel ConverterSpec ConverterProps ExtractModel ExtractSpec ExtractProps.
From Verif Require Import TreeProof WholeProof6 WholeProof4 WholeProof8 TabProof11 ColSpec ColProof3 HeadSpec HeadProof2.
From Verif Require Import MixModel MixProof ReadModel ReadSpec.
From Verif Require Import GridSpec CleanModel TreeSpec WholeSpec MixSpec ReadSpec.
From Verif Require Import TreeModel.
From Coq Require Import Lia Permutation.
Notation length := List.length.
Open Scope Q_scope.

(** What [extract_tables] and [convert] use is the same. *)
Lemma step_tables (st : list (ConverterModel.page spage)) s e ps orc : exists cs, snd (ConverterModel.step st (ConverterModel.OpExtract s e ps orc)) = ConverterModel.RTables cs /\
  match snd (ConverterModel.step st (ConverterModel.OpConvert s e ps orc (fun _ => true))) with
  | ConverterModel.RDoc d => map (@ConverterModel.d_content _) d = cs
  | _ => cs = []
  end.
Proof.
  cbn [ConverterModel.step snd]. eexists. split; [reflexivity|]. unfold ConverterModel.build_docx.
  destruct (filter _ _) as [|p l]; [reflexivity|]. rewrite map_map. reflexivity.
Qed.

(** The string of a cell. *)
Lemma lines_spaced ts bs : Forall2 spaced (map para_block ts) bs -> exists xs, bs = map ST xs /\ map st_lines xs = map b_lines ts.
Proof.
  revert bs. induction ts as [|t ts IH]; intros bs F; inversion F as [|? b ? bs' (x & -> & L & _) F']; subst; [exists []; split; reflexivity|].
  destruct (IH _ F') as (xs & -> & E). exists (x :: xs). split; [reflexivity|]. cbn [map]. rewrite E, L. reflexivity.
Qed.
Lemma cell_string b v ts bs : (forall t, In t ts -> b_lines t <> []) -> Forall2 spaced (map para_block ts) bs ->
  exists s, ExtractModel.cell_text (Some b, v, bs) = Some s /\ string_of (lines_in ts) s.
Proof.
  intros Ne F. destruct (lines_spaced ts bs F) as (xs & -> & L). eexists. split; [reflexivity|].
  assert (El : flat_map st_lines xs = lines_in ts) by (unfold lines_in; rewrite !flat_map_concat_map, L; reflexivity).
  split; [|split].
  - pose proof (ExtractProps.C71_text (Some b) v (map ST xs) _ (fun c Hc => match proj1 (in_map_iff _ _ _) Hc with ex_intro _ t (conj E _) => ex_intro _ t (eq_sym E) end) eq_refl) as V. cbn [snd] in V. refine (eq_trans V _).
    do 2 f_equal. clear - El. rewrite <- El. unfold line_glyphs. clear. induction xs as [|x xs IH]; [reflexivity|]. cbn [map flat_map sblock_text]. rewrite flat_map_app, IH. reflexivity.
  - intros E. destruct ts as [|t ts]; [|exfalso; cbn [lines_in flat_map] in E; apply app_eq_nil in E; apply (Ne t (or_introl eq_refl)), E]. destruct xs; [reflexivity|discriminate L].
  - intros Nl Br. rewrite <- El. apply (ExtractProps.C71_lines b v xs).
    + intros ->. apply Nl. rewrite <- El. reflexivity.
    + intros x Hx. apply (in_map st_lines) in Hx. rewrite L in Hx. apply in_map_iff in Hx. destruct Hx as (t & <- & Ht). apply Ne, Ht.
    + intros x l sp Hx Hl. apply Br. rewrite <- El. apply in_flat_map. exists x. split; assumption.
    + reflexivity.
Qed.

Definition page_reads (x : plan) (p : spage) : Prop :=
  forall es, match x with Stacked _ _ => page_tables es p = [] | Ruled g r _ cells _ => exists t, page_tables es p = [t] /\ table_read g r cells t
    | Columns _ _ _ _ => if es then exists t, page_tables es p = [t] /\ plan_read x t else page_tables es p = [] end.
Lemma no_tables es ts ss : Forall2 spaced ts ss -> ExtractModel.extract_tables es (map (fun b => (is_lattice b, b)) ss) = [].
Proof. induction 1 as [|t s ts ss (x & -> & _) _ IH]; [reflexivity|]. exact IH. Qed.
Lemma extract_app es a b : ExtractModel.extract_tables es (a ++ b) = ExtractModel.extract_tables es a ++ ExtractModel.extract_tables es b.
Proof. apply flat_map_app. Qed.
Lemma plan_reads order rorder ids pm fuel r x p (tpl : DocxModel.section) : (forall l, Permutation l (order l)) -> 1 # 1000000 < p_line_overlap pm -> 0 < p_float_layout pm -> 0 <= p_image_gap pm -> fits order pm r x ->
  parse_page order rorder ids pm (S (S fuel)) r = LayoutModel.Ok p -> page_reads x p.
Proof.
  intros Ho T Tf Gp. destruct x as [ts fs|g rg above cells below|above lc rc below]; cbn [fits].
  - intros (Pp & Oc) E es. destruct (page_pictured order rorder ids pm (S fuel) r ts fs Ho T Tf Gp Pp Oc) as (c & ss & ks & fl & Cl & E' & Sp & _). rewrite E' in E. injection E as <-. apply (no_tables es _ ss Sp).
  - intros ((d & Set_) & Pg & Ac) E es.
    destruct (page_shown order rorder ids pm Ho d r g rg above below cells Set_ Pg fuel tpl Ac) as (c & pg & body & ind & hs & t & A1 & A2 & A3 & A4 & A5 & A6 & A7 & A8 & A9 & _ & _ & _ & (sa & before & srows & sb & Eb & Sa & Sb & _ & (cs & _ & _ & _ & Lt & Ls & Main))).
    rewrite A2 in E. injection E as <-. exists (ExtractModel.table_text srows). unfold page_tables. rewrite Eb, map_app, extract_app, (no_tables es _ sa Sa). cbn [map app].
    change (ExtractModel.extract_tables es ((is_lattice (STable before srows), STable before srows) :: map (fun b => (is_lattice b, b)) sb)) with
      ((if es || tp_lattice before then [ExtractModel.table_text srows] else []) ++ ExtractModel.extract_tables es (map (fun b => (is_lattice b, b)) sb)).
    rewrite (no_tables es _ sb Sb), Lt, Bool.orb_true_r. split; [reflexivity|].
    split; [unfold ExtractModel.table_text; rewrite map_length; exact Ls|]. intros i Hi. destruct (nth_error srows i) as [[h scs]|] eqn:Ei; [|exfalso; apply nth_error_None in Ei; match type of Ei with (?a <= _)%nat => assert (Ea : a = g_rows g) by exact Ls end; rewrite Ea in Ei; clear - Ei Hi; lia].
    destruct (Main i h scs Ei) as (_ & Lsc & At). exists (map ExtractModel.cell_text scs). split; [unfold ExtractModel.table_text; rewrite nth_error_map; match goal with |- option_map _ ?x = _ => replace x with (Some (h, scs)) by (symmetry; exact Ei) end; reflexivity|]. split; [rewrite map_length; exact Lsc|].
    intros j i' j' m n Hj Er. destruct (At j Hj) as [(K & b & v & bs & Ej & Fs)|(K & Ej)]; rewrite Er in K; cbn [TableSpec.reg_top TableSpec.reg_left] in K.
    + left. injection K as -> ->. split; [reflexivity|]. split; [reflexivity|].
      destruct (cell_string b v (cells i j) bs) as (s & Es & Ss); [|exact Fs|].
      * intros t' Ht. destruct Pg as (_ & _ & _ & (Pa & _) & _). rewrite Forall_forall in Pa. destruct (Pa t') as (_ & _ & Ne & _); [|exact Ne]. apply in_or_app. right. apply in_or_app. left. apply TabProof5.in_grid_In. exists i, j. split; [exact Hi|]. split; [exact Hj|exact Ht].
      * exists s. split; [|exact Ss]. rewrite nth_error_map. match goal with |- option_map _ ?x = _ => replace x with (Some (Some b, v, bs)) by (symmetry; exact Ej) end. cbn [option_map]. rewrite Es. reflexivity.
    + right. split; [exact K|]. rewrite nth_error_map. match goal with |- option_map _ ?x = _ => replace x with (Some (None : option TableModel.bcell, false, @nil sblock)) by (symmetry; exact Ej) end. reflexivity.
  - intros (Lm & Pg & Ac) E es.
    destruct (headed_written order rorder ids pm Ho T Tf Lm r above lc rc below Pg Ac fuel tpl) as (c & pg & body & ind & hs & t & A1 & A2 & _ & _ & _ & _ & _ & _ & _ & _ & (sa & before & h & b0 & b1 & v0 & v1 & s0 & s1 & sb & Eb & Lt & F0 & F1 & Sa & Sb)).
    rewrite A2 in E. injection E as <-. destruct Pg as (_ & _ & _ & _ & _ & Pa & _). apply Forall_app in Pa. destruct Pa as (_ & Pa). apply Forall_app in Pa. destruct Pa as (Pa & _). rewrite Forall_forall in Pa.
    destruct (cell_string b0 v0 lc s0) as (x0 & E0 & S0); [intros t' Ht; destruct (Pa t' (in_or_app _ _ _ (or_introl Ht))) as (_ & _ & Ne & _); exact Ne|exact F0|].
    destruct (cell_string b1 v1 rc s1) as (x1 & E1 & S1); [intros t' Ht; destruct (Pa t' (in_or_app _ _ _ (or_intror Ht))) as (_ & _ & Ne & _); exact Ne|exact F1|].
    assert (Et : page_tables es pg = if es then [[[Some x0; Some x1]]] else []).
    { unfold page_tables. rewrite Eb, map_app, extract_app, (no_tables es _ sa Sa). cbn [map app]. set (rows := columns_row h b0 b1 v0 v1 s0 s1).
      change (ExtractModel.extract_tables es ((is_lattice (STable before rows), STable before rows) :: map (fun b => (is_lattice b, b)) sb)) with
        ((if es || tp_lattice before then [ExtractModel.table_text rows] else []) ++ ExtractModel.extract_tables es (map (fun b => (is_lattice b, b)) sb)).
      rewrite (no_tables es _ sb Sb), Lt, Bool.orb_false_r. destruct es; [|reflexivity]. unfold rows. unfold ExtractModel.table_text, columns_row. cbn [map snd app]. rewrite E0, E1. reflexivity. }
    rewrite Et. destruct es; [|reflexivity]. eexists. split; [reflexivity|]. exists x0, x1. split; [reflexivity|split; assumption].
Qed.
