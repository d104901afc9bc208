(** Splitting a layout of text and tables back into paragraphs; the layout of a cell with paragraphs. *)
From Verif Require GeomProof TableProps TableSpec.
From Verif Require Import AssignSpec AssignProof InterProof GraphProof TextProof PySort FlowModel FlowSpec FlowProof FlowProof2 FlowProps LayoutSpec LayoutProof.
From Verif Require Import CleanSpec CleanProof CleanProof2 CleanProof3 CleanProps.
From Verif Require Import WholeSpec.
From Verif Require Import CleanModel CleanSpec FlowModel FlowSpec LayoutModel WholeModel WholeSpec WholeProof WholeProof2 WholeProof3 WholeProof4 WholeProof5.
From Coq Require Import Lia Lqa Permutation Sorting.Sorted.
Notation length := List.length.
Open Scope Q_scope.

Definition higher (a b : fblock) : Prop := ry0 (f_box a) < ry0 (f_box b).
Definition texts_of (fs : list fblock) : list tblock := flat_map (fun f => match f with FText t => [t] | FTable _ _ => [] end) fs.
Definition tables_of (fs : list fblock) : list fblock := filter (fun f => match f with FText _ => false | FTable _ _ => true end) fs.
Definition reads_across (f : fblock) : Prop := e_dir (f_elem f) = LEFT_RIGHT.

Lemma para_higher ts : Forall paragraph ts -> StronglySorted beneath (lines_in ts) -> StronglySorted higher (map (fun t => FText (para_block t)) ts).
Proof.
  intros Pa St. rewrite Forall_forall in Pa.
  assert (Flat : forall t l, In t ts -> In l (b_lines t) -> flat_line l) by (intros t l Ht Hl; destruct (Pa t Ht) as (_ & _ & _ & _ & H); exact (H l Hl)).
  assert (Hf : forall t, In t ts -> box (hull (b_lines t)) /\ (exists l, In l (b_lines t) /\ ry0 (hull (b_lines t)) == ry0 (ln_bbox l)) /\ forall l, In l (b_lines t) -> ry0 (hull (b_lines t)) <= ry0 (ln_bbox l)).
  { intros t Ht. apply hull_facts; [apply (Pa t Ht)|]. intros l Hl. destruct (Flat t l Ht Hl) as ((Px & D & _) & _). split; assumption. }
  clear Pa. induction ts as [|t r IH]; [constructor|]. change (lines_in (t :: r)) with (b_lines t ++ lines_in r) in St. cbn [map].
  assert (Sr : StronglySorted beneath (lines_in r)) by (clear - St; induction (b_lines t) as [|a m IHm]; [exact St|]; cbn [app] in St; inversion St; subst; apply IHm; assumption).
  constructor; [apply IH; [exact Sr|intros x l Hx; apply Flat; right; exact Hx|intros x Hx; apply Hf; right; exact Hx]|].
  rewrite Forall_forall. intros y Hy. apply in_map_iff in Hy. destruct Hy as (u & <- & Hu). unfold higher. cbn [f_box para_block b_bbox].
  destruct (Hf u (or_intror Hu)) as (_ & (m & Hm & Em) & _). destruct (Hf t (or_introl eq_refl)) as (_ & (l & Hl & El) & _).
  assert (B : beneath l m).
  { apply in_split in Hl. destruct Hl as (x & z & E). rewrite E, <- app_assoc in St. cbn [app] in St. assert (Hm' : In m (z ++ lines_in r)) by (apply in_or_app; right; apply in_flat_map; exists u; split; assumption).
    clear - St Hm'. induction x as [|a x IHx]; cbn [app] in St; inversion St as [|? ? S1 F]; subst; [rewrite Forall_forall in F; apply F, Hm'|apply IHx, S1]. }
  destruct (flat_ext l (Flat t l (or_introl eq_refl) Hl)) as [A _]. unfold beneath in B. lra.
Qed.
(** Sorting blocks with different upper edges. *)
Lemma sort_higher fs out : (forall f, In f out -> reads_across f) -> Permutation fs out -> StronglySorted higher out -> sort_fblocks fs = out.
Proof.
  intros D P S. unfold sort_fblocks.
  assert (Dr : coll_dir (map f_elem fs) = LEFT_RIGHT).
  { assert (D' : forall e, In e (map f_elem fs) -> e_dir e = LEFT_RIGHT) by (intros e He; apply in_map_iff in He; destruct He as (f & <- & Hf); apply D; eapply Permutation_in; [exact P|exact Hf]).
    clear - D'. unfold coll_dir. destruct (map f_elem fs) as [|e r]; [reflexivity|]. destruct (forallb _ r); [apply D'; left; reflexivity|reflexivity]. }
  rewrite Dr. change (is_horizontal LEFT_RIGHT) with true. apply sort_key_unique; [exact P|]. clear - S.
  induction S as [|a l S IH F]; constructor; [exact IH|]. rewrite Forall_forall in *. intros b Hb. specialize (F b Hb). unfold higher in F. unfold reading_key.
  assert (E : forall f, e_bbox (f_elem f) = f_box f) by (intros [t|k bb]; reflexivity). rewrite !E. cbn [lex_le]. set (p := f_box a) in *. set (q := f_box b) in *. clearbody p q. clear - F.
  assert (K1 : qlt (ry0 q) (ry0 p) = false) by (destruct (qlt_spec (ry0 q) (ry0 p)); [lra|reflexivity]). assert (K2 : qeq (ry0 q) (ry0 p) = false) by (destruct (qeq_spec (ry0 q) (ry0 p)); [lra|reflexivity]).
  rewrite ?K1, ?K2. reflexivity.
Qed.
Lemma para_across t : paragraph t -> reads_across (FText (para_block t)).
Proof. intros (_ & _ & _ & _ & H). unfold reads_across. cbn [f_elem b_elem e_dir]. apply flat_dir. exact H. Qed.
Lemma split_mixed order ids tol sep fs ts out : (forall l, Permutation l (order l)) -> 0 < tol -> Forall paragraph ts -> ForallOrdPairs other_block ts ->
  StronglySorted beneath (lines_in ts) -> Permutation (lines_in (texts_of fs)) (lines_in ts) -> (forall b, In b (texts_of fs) -> stackable (b_lines b)) ->
  (forall f, In f (tables_of fs) -> f_bool f = true) ->
  Permutation (tables_of fs ++ map (fun t => FText (para_block t)) ts) out -> StronglySorted higher out ->
  split_back order ids tol sep fs = Some out.
Proof.
  intros Ho T Pa Ot St P S Tt Po So. pose proof Pa as Pa'. rewrite Forall_forall in Pa'.
  assert (Flat : forall t l, In t ts -> In l (b_lines t) -> flat_line l) by (intros t l Ht Hl; destruct (Pa' t Ht) as (_ & _ & _ & _ & H); exact (H l Hl)).
  assert (FL : forall l, In l (lines_in ts) -> flat_line l) by (intros l Hl; apply in_flat_map in Hl; destruct Hl as (t & Ht & Hl); exact (Flat t l Ht Hl)).
  assert (FB : forall b l, In b (texts_of fs) -> In l (b_lines b) -> flat_line l) by (intros b l Hb Hl; apply FL; eapply Permutation_in; [exact P|]; apply in_flat_map; exists b; split; assumption).
  assert (Pf : part_flow order tol sep fs = Some (tables_of fs, lines_in (texts_of fs))).
  { clear - FB S Ho T. induction fs as [|[b|k bb] r IH]; [reflexivity| |].
    - cbn [part_flow f_flow texts_of flat_map app] in *. unfold tables_of. cbn [filter]. fold (tables_of r). rewrite IH; [|intros x Hx; apply S; right; exact Hx|intros x l Hx; apply FB; right; exact Hx].
      destruct (S b (or_introl eq_refl)) as (s & Ps & Ss).
      rewrite (flow_down order tol sep (b_lines b) s Ho T); [|intros l Hl; apply (FB b l (or_introl eq_refl) Hl)|exact Ps|exact Ss].
      rewrite (normal_filter (b_lines b)); [reflexivity|]. intros l Hl. apply (FB b l (or_introl eq_refl) Hl).
    - cbn [part_flow f_flow texts_of flat_map app] in *. unfold tables_of. cbn [filter]. fold (tables_of r). rewrite IH; [reflexivity|exact S|exact FB]. }
  unfold split_back. rewrite Pf. destruct (split_sources order (lines_in (texts_of fs)) ts Ho Pa Ot St P) as (gs & Eg & Pg). rewrite Eg.
  assert (Sb : forall gs k, (forall g, In g gs -> exists t, In t ts /\ g = b_lines t) -> source_blocks ids k gs = map (fun g => FText (mkBlk false (hull g) g)) gs).
  { clear - Pa'. induction gs as [|g gs IH]; intros k H; [reflexivity|]. cbn [source_blocks map]. rewrite IH by (intros x Hx; apply H; right; exact Hx). f_equal.
    destruct (H g (or_introl eq_refl)) as (t & Ht & ->). destruct (Pa' t Ht) as (_ & _ & _ & (p & Hp) & Hl). unfold source_block.
    assert (E : map (set_pid (ids k)) (filter ln_bool (b_lines t)) = b_lines t).
    { rewrite normal_filter by (intros l Hx; apply (Hl l Hx)). clear - Hp. induction (b_lines t) as [|l r IH]; [reflexivity|]. cbn [map]. rewrite IH by (intros x Hx; apply Hp; right; exact Hx). f_equal. unfold set_pid. rewrite (Hp l (or_introl eq_refl)). reflexivity. }
    rewrite E. reflexivity. }
  rewrite Sb; [|intros g Hg; apply (Permutation_in _ Pg), in_map_iff in Hg; destruct Hg as (t & <- & Ht); exists t; split; [exact Ht|reflexivity]].
  set (G := map (fun g => FText (mkBlk false (hull g) g)) gs).
  assert (PG : Permutation G (map (fun t => FText (para_block t)) ts)) by (unfold G; eapply Permutation_trans; [apply Permutation_map, Pg|]; rewrite map_map; apply Permutation_refl).
  assert (PGo : Permutation (tables_of fs ++ G) out) by (eapply Permutation_trans; [apply Permutation_app_head, PG|exact Po]).
  assert (Hf : forall t, In t ts -> box (hull (b_lines t))).
  { intros t Ht. apply hull_facts; [apply (Pa' t Ht)|]. intros l Hl. destruct (Flat t l Ht Hl) as ((Px & D & _) & _). split; assumption. }
  assert (Fb : filter f_bool (tables_of fs ++ G) = tables_of fs ++ G).
  { apply filter_all. intros b Hb. apply in_app_or in Hb. destruct Hb as [Hb|Hb]; [apply Tt, Hb|]. apply (Permutation_in _ PG), in_map_iff in Hb. destruct Hb as (t & <- & Ht). unfold f_bool. cbn [f_box para_block b_bbox]. apply GeomProof.proper_truthy. apply (Hf t Ht). }
  rewrite Fb. f_equal. apply sort_higher; [|exact PGo|exact So].
  intros f Hf'. apply (Permutation_in _ (Permutation_sym Po)), in_app_or in Hf'. destruct Hf' as [Hf'|Hf'].
  - unfold tables_of in Hf'. apply filter_In in Hf'. destruct f as [t|k bb]; [destruct Hf' as [_ X]; discriminate X|reflexivity].
  - apply in_map_iff in Hf'. destruct Hf' as (t & <- & Ht). apply para_across, Pa', Ht.
Qed.
(** The layout of a cell. *)
Lemma parse_cell_texts order rorder ids st fuel w area bs ts : (forall l, Permutation l (order l)) -> 0 < flow_tol st -> Forall paragraph ts -> ForallOrdPairs other_block ts ->
  StronglySorted beneath (lines_in ts) -> Permutation (lines_in bs) (lines_in ts) ->
  (forall b, In b bs -> proper (b_bbox b) /\ b_lines b <> [] /\ stackable (b_lines b)) ->
  (forall i, ~ in_line_at (map FText bs) i) ->
  layout_parse order rorder ids st (S fuel) false w area (map LText bs) no_shapes = Ok (LayoutModel.mkW (w_shapes w) (w_next w + List.length ts), map (fun t => LText (para_block t)) ts).
Proof.
  intros Ho T Pa Ot St P S N. pose proof Pa as Pa'. rewrite Forall_forall in Pa'.
  assert (FL : forall l, In l (lines_in ts) -> flat_line l) by (intros x Hx; apply in_flat_map in Hx; destruct Hx as (t & Ht & Hx); destruct (Pa' t Ht) as (_ & _ & _ & _ & H); exact (H x Hx)).
  assert (FB : forall b l, In b bs -> In l (b_lines b) -> flat_line l) by (intros c x Hc Hx; apply FL; eapply Permutation_in; [exact P|]; apply in_flat_map; exists c; split; assumption).
  assert (F : forall k, flat k (map LText bs) = map FText bs) by (clear; induction bs as [|t r IH]; intros k; [reflexivity|cbn [map flat]; rewrite IH; reflexivity]).
  assert (Tb : tabs (map LText bs) = []) by (clear; unfold tabs; induction bs as [|t r IH]; [reflexivity|exact IH]).
  assert (Tx : texts_of (map FText bs) = bs) by (clear; induction bs as [|t r IH]; [reflexivity|cbn [map texts_of flat_map app]; f_equal; exact IH]).
  assert (Tn : tables_of (map FText bs) = []) by (clear; unfold tables_of; induction bs as [|t r IH]; [reflexivity|exact IH]).
  assert (L : lattice order st w no_shapes = Ok (w, [])) by reflexivity.
  assert (Dec : forall b, In b (map FText bs) -> exists t, b = FText t /\ In t bs) by (intros c Hc; apply in_map_iff in Hc; destruct Hc as (t & <- & Ht); eauto).
  assert (Sm : stream order rorder st w area (map LText bs) no_shapes = Ok (w, [])).
  { unfold stream. rewrite F. rewrite (C65_plain_text order); [reflexivity|exact Ho| | |exact N].
    - intros c Hc. destruct (Dec c Hc) as (t & -> & Ht). destruct (S t Ht) as (Pt & Ne & _). split; [exact Pt|]. unfold sub_lines. rewrite normal_filter; [exact Ne|]. intros x Hx. apply (FB t x Ht Hx).
    - intros c Hc. destruct (Dec c Hc) as (t & -> & Ht). split; [|intros (s & [] & _)]. intros (t' & E & Fa). injection E as <-. destruct (S t Ht) as (_ & _ & (s & Ps & Ss)).
      rewrite (flow_down order (flow_tol st) (separate st) (b_lines t) s Ho T) in Fa; [discriminate Fa|intros x Hx; apply (FB t x Ht Hx)|exact Ps|exact Ss]. }
  cbn [layout_parse]. unfold level. cbn [bind fst snd place_tables]. rewrite L. cbn [bind fst snd place_tables]. rewrite Sm. cbn [bind fst snd place_tables]. rewrite F, Tb.
  rewrite (split_mixed order _ (flow_tol st) (separate st) (map FText bs) ts (map (fun t => FText (para_block t)) ts) Ho T Pa Ot St).
  - assert (Bk : flat_map (back []) (map (fun t => FText (para_block t)) ts) = map LText (map para_block ts)) by (clear; induction ts as [|t r IH]; [reflexivity|cbn [map flat_map back app]; rewrite IH; reflexivity]).
    rewrite Bk. unfold text_format. assert (Sty : forall v, style_shapes v no_shapes = []) by reflexivity. rewrite Sty, format_none. cbn [bind fst snd]. rewrite texts_parsed, map_map, map_length. reflexivity.
  - rewrite Tx. exact P.
  - rewrite Tx. intros b Hb. apply (S b Hb).
  - rewrite Tn. intros f [].
  - rewrite Tn. apply Permutation_refl.
  - apply para_higher; assumption.
Qed.
