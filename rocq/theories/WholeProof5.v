(** Parsing the layout of a page of paragraphs, and its spacing. *)
From Verif Require GeomProof TableProps TableSpec.
From Verif Require Import AssignSpec AssignProof InterProof GraphProof TextProof PySort FlowModel FlowSpec FlowProof FlowProof2 FlowProps LayoutSpec LayoutProof.
From Verif Require Import CleanSpec CleanProof CleanProof2 CleanProof3 CleanProps.
From Verif Require Import WholeSpec.
From Verif Require Import CleanModel CleanSpec FlowModel FlowSpec LayoutModel WholeModel WholeSpec WholeProof WholeProof2 WholeProof3 WholeProof4.
From Coq Require Import Lia Lqa Permutation Sorting.Sorted.
Notation length := List.length.
Open Scope Q_scope.

Lemma flat_dir b : (forall l, In l (b_lines b) -> flat_line l) -> block_dir b = LEFT_RIGHT.
Proof.
  intros X. unfold block_dir. destruct (b_lines b) as [|l r]; [reflexivity|].
  assert (E1 : existsb (fun l => dir_eqb (ln_dir l) IGNORE) (l :: r) = false).
  { apply Bool.not_true_iff_false. intros K. apply existsb_exists in K. destruct K as (x & Hx & K). rewrite (proj2 (X x Hx)) in K. discriminate K. }
  rewrite E1. destruct (forallb _ r); [apply X; left; reflexivity|reflexivity].
Qed.
Lemma format_none bs : forall w, format_blocks w [] bs = (w, bs).
Proof. induction bs as [|[t|tb cs] r IH]; intros w; [reflexivity| |]; cbn [format_blocks format_lines]; rewrite IH; [destruct t|]; reflexivity. Qed.
Lemma texts_parsed rec w ts : parse_tables rec w (map LText ts) = Ok (w, map LText ts).
Proof. revert w. induction ts as [|t r IH]; intros w; [reflexivity|]. cbn [map parse_tables bind fst snd]. rewrite IH. reflexivity. Qed.
Lemma parse_stacked order rorder ids st fuel area bs ts : (forall l, Permutation l (order l)) -> 0 < flow_tol st -> Forall paragraph ts -> ForallOrdPairs other_block ts ->
  StronglySorted beneath (lines_in ts) -> Permutation (lines_in bs) (lines_in ts) ->
  (forall b, In b bs -> box (b_bbox b) /\ b_lines b <> [] /\ StronglySorted beneath (b_lines b)) ->
  (forall i, ~ in_line_at (map FText bs) i) -> one_column area ts ->
  layout_parse order rorder ids st (S fuel) true (LayoutModel.mkW [] 0) area (map LText bs) (mkLS [] [] [] [] []) = Ok (LayoutModel.mkW [] (List.length ts), map (fun t => LText (para_block t)) ts).
Proof.
  intros Ho T Pa Ot St P S N (l & a & b & Hl & Ha & Hb & Sp & Ca & Cb & K1 & K2). pose proof Pa as Pa'. rewrite Forall_forall in Pa'.
  assert (Flat : forall t l, In t ts -> In l (b_lines t) -> flat_line l) by (intros t x Ht Hx; destruct (Pa' t Ht) as (_ & _ & _ & _ & H); exact (H x Hx)).
  assert (FL : forall l, In l (lines_in ts) -> flat_line l) by (intros x Hx; apply in_flat_map in Hx; destruct Hx as (t & Ht & Hx); exact (Flat t x Ht Hx)).
  assert (FB : forall b l, In b bs -> In l (b_lines b) -> flat_line l) by (intros c x Hc Hx; apply FL; eapply Permutation_in; [exact P|]; apply in_flat_map; exists c; split; assumption).
  assert (F : forall k, flat k (map LText bs) = map FText bs) by (clear; induction bs as [|t r IH]; intros k; [reflexivity|cbn [map flat]; rewrite IH; reflexivity]).
  assert (Tb : tabs (map LText bs) = []) by (clear; unfold tabs; induction bs as [|t r IH]; [reflexivity|exact IH]).
  set (w := LayoutModel.mkW [] 0). set (ss := mkLS [] [] [] [] []).
  assert (L : lattice order st w ss = Ok (w, [])) by reflexivity.
  assert (Dec : forall b, In b (map FText bs) -> exists t, b = FText t /\ In t bs) by (intros c Hc; apply in_map_iff in Hc; destruct Hc as (t & <- & Ht); eauto).
  assert (Sm : stream order rorder st w area (map LText bs) ss = Ok (w, [])).
  { unfold stream. rewrite F. rewrite (C65_plain_text order); [reflexivity|exact Ho| | |exact N].
    - intros c Hc. destruct (Dec c Hc) as (t & -> & Ht). destruct (S t Ht) as ((Pt & _) & Ne & _). split; [exact Pt|]. unfold sub_lines. rewrite normal_filter; [exact Ne|]. intros x Hx. apply (FB t x Ht Hx).
    - intros c Hc. destruct (Dec c Hc) as (t & -> & Ht). split; [|intros (s & [] & _)]. intros (t' & E & Fa). injection E as <-.
      rewrite (flow_down order (flow_tol st) (separate st) (b_lines t) (b_lines t) Ho T) in Fa; [discriminate Fa|intros x Hx; apply (FB t x Ht Hx)|apply Permutation_refl|apply (S t Ht)]. }
  assert (Lt : layout_table w area (map LText bs) ss = Ok (w, [])).
  { unfold layout_table. assert (Ls : flat_map lines_of (map LText bs) = lines_in bs) by (clear; induction bs as [|t r IH]; [reflexivity|cbn [map flat_map lines_of]; rewrite IH; reflexivity]).
    rewrite Ls. cbn [ls_all ss shapes_at map]. rewrite app_nil_r. set (el := map ln_bbox (lines_in bs)).
    assert (B : forall x, In x el -> proper x /\ rect_decimal x).
    { intros x Hx. apply in_map_iff in Hx. destruct Hx as (y & <- & Hy). destruct (FL y (Permutation_in _ P Hy)) as ((P1 & P2 & _) & _). split; assumption. }
    assert (Fe : filter rect_bool el = el) by (apply TextProof.filter_all; intros x Hx; apply GeomProof.proper_truthy; apply (B x Hx)). rewrite Fe.
    assert (Iel : forall y, In y (lines_in ts) -> In (ln_bbox y) el) by (intros y Hy; apply in_map; eapply Permutation_in; [apply Permutation_sym, P|exact Hy]).
    assert (X : page_layout area el = None); [|rewrite X; reflexivity].
    destruct (page_layout area el) eqn:Ep; [|reflexivity]. exfalso.
    assert (Wh := proj1 (TableProps.C55_when area el B (ex_intro _ _ (conj (Iel a Ha) Ca)))). rewrite Ep in Wh.
    destruct (Wh ltac:(discriminate) (ln_bbox l) (Iel l Hl) Sp) as [A|A]; [specialize (A _ (Iel a Ha) Ca)|specialize (A _ (Iel b Hb) Cb)]; lra. }
  cbn [layout_parse]. unfold level. rewrite Lt. cbn [bind fst snd place_tables]. rewrite L. cbn [bind fst snd place_tables]. rewrite Sm. cbn [bind fst snd place_tables]. rewrite F, Tb.
  rewrite (split_page order _ (flow_tol st) (separate st) bs ts Ho T Pa Ot St P) by (intros c Hc; apply (S c Hc)).
  assert (Bk : flat_map (back []) (map (fun t => FText (para_block t)) ts) = map LText (map para_block ts)) by (clear; induction ts as [|t r IH]; [reflexivity|cbn [map flat_map back app]; rewrite IH; reflexivity]).
  rewrite Bk. unfold text_format. assert (Sty : forall v, style_shapes v ss = []) by reflexivity. rewrite Sty, format_none. cbn [bind fst snd]. rewrite texts_parsed, map_map, map_length. reflexivity.
Qed.
