(** Parsing the layout of a page of paragraphs with drawings that are no table borders and no shadings. *)
From Verif Require GeomProof TableProps TableSpec ShapeProof ShapeModel ShapeSpec.
From Verif Require Import AssignSpec AssignProof InterProof GraphProof TextProof PySort FlowModel FlowSpec FlowProof FlowProof2 FlowProps LayoutSpec LayoutProof.
From Verif Require Import CleanSpec CleanProof CleanProof2 CleanProof3 CleanProps.
From Verif Require Import WholeSpec.
From Verif Require Import CleanModel CleanSpec FlowModel FlowSpec LayoutModel WholeModel WholeSpec WholeProof WholeProof2 WholeProof3 WholeProof4 WholeProof5.
From Coq Require Import Lia Lqa Permutation Sorting.Sorted.
Notation length := List.length.
Open Scope Q_scope.

Lemma parse_marked order rorder ids st fuel area bs ts W ss w' bs' : (forall l, Permutation l (order l)) -> 0 < flow_tol st -> Forall paragraph ts -> ForallOrdPairs other_block ts ->
  StronglySorted beneath (lines_in ts) -> Permutation (lines_in bs) (lines_in ts) ->
  (forall b, In b bs -> box (b_bbox b) /\ b_lines b <> [] /\ StronglySorted beneath (b_lines b)) ->
  (forall i, ~ in_line_at (map FText bs) i) -> one_column area ts ->
  ls_strokes ss = [] -> ls_fills ss = [] -> (forall k, In k (ls_all ss) -> box (sh_bbox (shape_at (LayoutModel.mkW W 0) k))) ->
  text_format (LayoutModel.mkW W (List.length ts)) ss (map LText (map para_block ts)) = (w', map LText bs') ->
  layout_parse order rorder ids st (S fuel) true (LayoutModel.mkW W 0) area (map LText bs) ss = Ok (w', map LText bs').
Proof.
  intros Ho T Pa Ot St P S N (l & a & b & Hl & Ha & Hb & Sp & Ca & Cb & K1 & K2) Zs Zf Bs Tf. pose proof Pa as Pa'. rewrite Forall_forall in Pa'.
  assert (Flat : forall t l, In t ts -> In l (b_lines t) -> flat_line l) by (intros t x Ht Hx; destruct (Pa' t Ht) as (_ & _ & _ & _ & H); exact (H x Hx)).
  assert (FL : forall l, In l (lines_in ts) -> flat_line l) by (intros x Hx; apply in_flat_map in Hx; destruct Hx as (t & Ht & Hx); exact (Flat t x Ht Hx)).
  assert (FB : forall b l, In b bs -> In l (b_lines b) -> flat_line l) by (intros c x Hc Hx; apply FL; eapply Permutation_in; [exact P|]; apply in_flat_map; exists c; split; assumption).
  assert (F : forall k, flat k (map LText bs) = map FText bs) by (clear; induction bs as [|t r IH]; intros k; [reflexivity|cbn [map flat]; rewrite IH; reflexivity]).
  assert (Tb : tabs (map LText bs) = []) by (clear; unfold tabs; induction bs as [|t r IH]; [reflexivity|exact IH]).
  set (w := LayoutModel.mkW W 0) in *.
  assert (L : lattice order st w ss = Ok (w, [])) by (unfold lattice; rewrite Zs; destruct (ls_all ss); reflexivity).
  assert (Dec : forall b, In b (map FText bs) -> exists t, b = FText t /\ In t bs) by (intros c Hc; apply in_map_iff in Hc; destruct Hc as (t & <- & Ht); eauto).
  assert (Sm : stream order rorder st w area (map LText bs) ss = Ok (w, [])).
  { unfold stream. rewrite F, Zf. cbn [shapes_at map]. rewrite (C65_plain_text order); [reflexivity|exact Ho| | |exact N].
    - intros c Hc. destruct (Dec c Hc) as (t & -> & Ht). destruct (S t Ht) as ((Pt & _) & Ne & _). split; [exact Pt|]. unfold sub_lines. rewrite normal_filter; [exact Ne|]. intros x Hx. apply (FB t x Ht Hx).
    - intros c Hc. destruct (Dec c Hc) as (t & -> & Ht). split; [|intros (s & [] & _)]. intros (t' & E & Fa). injection E as <-.
      rewrite (flow_down order (flow_tol st) (separate st) (b_lines t) (b_lines t) Ho T) in Fa; [discriminate Fa|intros x Hx; apply (FB t x Ht Hx)|apply Permutation_refl|apply (S t Ht)]. }
  assert (Lt : layout_table w area (map LText bs) ss = Ok (w, [])).
  { unfold layout_table. assert (Ls : flat_map lines_of (map LText bs) = lines_in bs) by (clear; induction bs as [|t r IH]; [reflexivity|cbn [map flat_map lines_of]; rewrite IH; reflexivity]).
    rewrite Ls. set (el := map ln_bbox (lines_in bs) ++ map sh_bbox (shapes_at w (ls_all ss))).
    assert (B : forall x, In x el -> proper x /\ rect_decimal x).
    { intros x Hx. unfold el in Hx. apply in_app_or in Hx. destruct Hx as [Hx|Hx].
      - apply in_map_iff in Hx. destruct Hx as (y & <- & Hy). destruct (FL y (Permutation_in _ P Hy)) as ((P1 & P2 & _) & _). split; assumption.
      - apply in_map_iff in Hx. destruct Hx as (y & <- & Hy). unfold shapes_at in Hy. apply in_map_iff in Hy. destruct Hy as (k & <- & Hk). exact (Bs k Hk). }
    assert (Fe : filter rect_bool el = el) by (apply TextProof.filter_all; intros x Hx; apply GeomProof.proper_truthy; apply (B x Hx)). rewrite Fe.
    assert (Iel : forall y, In y (lines_in ts) -> In (ln_bbox y) el) by (intros y Hy; apply in_or_app; left; apply in_map; eapply Permutation_in; [apply Permutation_sym, P|exact Hy]).
    assert (X : page_layout area el = None); [|rewrite X; reflexivity].
    destruct (page_layout area el) eqn:Ep; [|reflexivity]. exfalso.
    assert (Wh := proj1 (TableProps.C55_when area el B (ex_intro _ _ (conj (Iel a Ha) Ca)))). rewrite Ep in Wh.
    destruct (Wh ltac:(discriminate) (ln_bbox l) (Iel l Hl) Sp) as [A|A]; [specialize (A _ (Iel a Ha) Ca)|specialize (A _ (Iel b Hb) Cb)]; lra. }
  cbn [layout_parse]. unfold level. rewrite Lt. cbn [bind fst snd place_tables]. rewrite L. cbn [bind fst snd place_tables]. rewrite Sm. cbn [bind fst snd place_tables]. rewrite F, Tb.
  rewrite (split_page order _ (flow_tol st) (separate st) bs ts Ho T Pa Ot St P) by (intros c Hc; apply (S c Hc)).
  assert (Bk : flat_map (back []) (map (fun t => FText (para_block t)) ts) = map LText (map para_block ts)) by (clear; induction ts as [|t r IH]; [reflexivity|cbn [map flat_map back app]; rewrite IH; reflexivity]).
  rewrite Bk, map_length. unfold w. cbn [w_shapes w_next Nat.add]. rewrite Tf. cbn [bind fst snd]. rewrite texts_parsed. reflexivity.
Qed.

(* ---------------- the groups of drawings on a page ---------------- *)
Definition as_shape_block (b : tblock) : ShapeModel.tblock := ShapeModel.mkTblock (b_bbox b) (map ln_bbox (b_lines b)).
Lemma shape_blocks_map bs : shape_blocks (map LText bs) = map as_shape_block bs.
Proof. induction bs as [|b bs IH]; [reflexivity|]. cbn [map shape_blocks flat_map]. unfold shape_blocks in IH. rewrite IH. reflexivity. Qed.
Lemma sorted_map_ {A B} (f : A -> B) (R : B -> B -> Prop) l : StronglySorted (fun a b => R (f a) (f b)) l -> StronglySorted R (map f l).
Proof. induction 1 as [|a l S IH F]; cbn [map]; constructor; [exact IH|]. apply Forall_forall. intros x Hx. apply in_map_iff in Hx. destruct Hx as (y & <- & Hy). rewrite Forall_forall in F. exact (F y Hy). Qed.
Lemma blocks_in_order out : (forall b l, In b out -> In l (b_lines b) -> flat_line l) ->
  sort_key ShapeProof.block_key (map as_shape_block (sort_blocks out)) = map as_shape_block (sort_blocks out).
Proof.
  intros H. unfold sort_key. apply py_sort_of_sorted. apply sorted_map_. unfold sort_blocks.
  assert (D : is_horizontal (coll_dir (map b_elem out)) = true).
  { destruct out as [|b r]; [reflexivity|]. unfold coll_dir. cbn [map]. 
    assert (X : forall x, In x (map b_elem (b :: r)) -> e_dir x = LEFT_RIGHT) by (intros x Hx; apply in_map_iff in Hx; destruct Hx as (c & <- & Hc); cbn [b_elem e_dir]; apply flat_dir; intros l Hl; apply (H c l Hc Hl)).
    cbn [map] in X. generalize dependent (map b_elem r). generalize (b_elem b). intros e es X.
    rewrite (X e (or_introl eq_refl)). repeat match goal with |- context [if ?c then _ else _] => destruct c end; reflexivity. }
  rewrite D. cbn [reading_key]. unfold sort_key. apply py_sort_sorted; [intros; apply lex_le_total|intros ? ? ?; apply lex_le_trans].
Qed.
