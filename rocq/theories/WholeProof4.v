(** The layout of a page of paragraphs. *)
From Verif Require Import GeomProof AssignSpec AssignProof InterProof GraphProof TextProof TextProps PySort FlowModel FlowSpec FlowProof FlowProof2 FlowProps.
From Verif Require Import CleanSpec CleanProof CleanProof2 CleanProof3 CleanProps.
From Verif Require Import WholeSpec.
From Verif Require Import CleanModel CleanSpec FlowModel FlowSpec WholeProof WholeProof2 WholeProof3.
From Coq Require Import Lia Lqa Permutation Sorting.Sorted.
Notation length := List.length.
Open Scope Q_scope.

Lemma union_first z b : rect_empty z = true -> box b -> req (union_bbox z b) b.
Proof. intros Z (P & D). unfold union_bbox, runion. rewrite (proper_nonempty b P), Z. apply rround_fixed. exact D. Qed.
Lemma union_reach a b : box a -> box b -> (ry0 (union_bbox a b) == ry0 a \/ ry0 (union_bbox a b) == ry0 b) /\ ry0 (union_bbox a b) <= ry0 a /\ ry0 (union_bbox a b) <= ry0 b.
Proof.
  intros (Pa & Da) (Pb & Db). pose proof (proper_valid a Pa) as Va. pose proof (proper_valid b Pb) as Vb.
  destruct (union_normal a b (conj Va Da) (conj Vb Db)) as ((_ & E0 & _ & _) & _). rewrite E0. unfold runion. rewrite (proper_nonempty a Pa), (proper_nonempty b Pb). cbn [ry0]. unfold qmin. qcases; (split; [first [left; lra|right; lra]|split; lra]).
Qed.

Lemma hull_from ls : forall r, box r -> (forall l, In l ls -> box (ln_bbox l)) ->
  let h := fold_left (fun r l => union_bbox r (ln_bbox l)) ls r in
  (ry0 h == ry0 r \/ exists l, In l ls /\ ry0 h == ry0 (ln_bbox l)) /\ ry0 h <= ry0 r /\ forall l, In l ls -> ry0 h <= ry0 (ln_bbox l).
Proof.
  induction ls as [|l t IH]; intros r B H; cbn [fold_left]; cbv zeta; [split; [left; lra|split; [lra|intros l []]]|].
  assert (Bl : box (ln_bbox l)) by (apply H; left; reflexivity). destruct (union_reach r (ln_bbox l) B Bl) as (R1 & R2 & R3).
  destruct (IH (union_bbox r (ln_bbox l)) (union_box _ _ B Bl) (fun x Hx => H x (or_intror Hx))) as (I1 & I2 & I3). cbv zeta in *.
  split; [|split].
  - destruct I1 as [I1|(x & Hx & I1)]; [|right; exists x; split; [right; exact Hx|exact I1]]. destruct R1 as [R1|R1]; [left; lra|right; exists l; split; [left; reflexivity|lra]].
  - lra.
  - intros x [<-|Hx]; [lra|apply I3, Hx].
Qed.
Lemma hull_facts ls : ls <> [] -> (forall l, In l ls -> box (ln_bbox l)) ->
  box (hull ls) /\ (exists l, In l ls /\ ry0 (hull ls) == ry0 (ln_bbox l)) /\ forall l, In l ls -> ry0 (hull ls) <= ry0 (ln_bbox l).
Proof.
  intros N H. destruct ls as [|l t]; [congruence|]. assert (Bl : box (ln_bbox l)) by (apply H; left; reflexivity).
  unfold hull. split; [apply fold_boxes0; [reflexivity|exact H]|]. cbn [fold_left].
  assert (B0 : box (union_bbox rect0 (ln_bbox l))) by (apply union_zero; [reflexivity|exact Bl]).
  destruct (union_first rect0 (ln_bbox l) eq_refl Bl) as (_ & E & _).
  destruct (hull_from t (union_bbox rect0 (ln_bbox l)) B0 (fun x Hx => H x (or_intror Hx))) as (I1 & I2 & I3). cbv zeta in *.
  split; [destruct I1 as [I1|(x & Hx & I1)]; [exists l; split; [left; reflexivity|lra]|exists x; split; [right; exact Hx|exact I1]]|].
  intros x [<-|Hx]; [lra|apply I3, Hx].
Qed.
(** The blocks a page of paragraphs is split into. *)
Definition para_block (t : tblock) : tblock := mkBlk false (hull (b_lines t)) (b_lines t).
Lemma split_page order ids tol sep bs ts : (forall l, Permutation l (order l)) -> 0 < tol -> Forall paragraph ts -> ForallOrdPairs other_block ts ->
  StronglySorted beneath (lines_in ts) -> Permutation (lines_in bs) (lines_in ts) -> (forall b, In b bs -> StronglySorted beneath (b_lines b)) ->
  split_back order ids tol sep (map FText bs) = Some (map (fun t => FText (para_block t)) ts).
Proof.
  intros Ho T Pa Ot St P S. pose proof Pa as Pa'. rewrite Forall_forall in Pa'.
  assert (Flat : forall t l, In t ts -> In l (b_lines t) -> flat_line l) by (intros t l Ht Hl; destruct (Pa' t Ht) as (_ & _ & _ & _ & H); exact (H l Hl)).
  assert (FL : forall l, In l (lines_in ts) -> flat_line l) by (intros l Hl; apply in_flat_map in Hl; destruct Hl as (t & Ht & Hl); exact (Flat t l Ht Hl)).
  assert (FB : forall b l, In b bs -> In l (b_lines b) -> flat_line l) by (intros b l Hb Hl; apply FL; eapply Permutation_in; [exact P|]; apply in_flat_map; exists b; split; assumption).
  assert (Pf : part_flow order tol sep (map FText bs) = Some ([], lines_in bs)).
  { clear P. induction bs as [|b r IH]; [reflexivity|]. cbn [map part_flow f_flow]. rewrite IH; [|intros x Hx; apply S; right; exact Hx|intros x l Hx; apply FB; right; exact Hx].
    rewrite (flow_down order tol sep (b_lines b) (b_lines b) Ho T); [|intros l Hl; apply (FB b l (or_introl eq_refl) Hl)|apply Permutation_refl|apply S; left; reflexivity].
    rewrite (normal_filter (b_lines b)); [reflexivity|]. intros l Hl. apply (FB b l (or_introl eq_refl) Hl). }
  unfold split_back. rewrite Pf. destruct (split_sources order (lines_in bs) ts Ho Pa Ot St P) as (gs & Eg & Pg). rewrite Eg. cbn [app].
  assert (Sb : forall gs k, (forall g, In g gs -> exists t, In t ts /\ g = b_lines t) -> source_blocks ids k gs = map (fun g => FText (mkBlk false (hull g) g)) gs).
  { clear - Pa'. induction gs as [|g gs IH]; intros k H; [reflexivity|]. cbn [source_blocks map]. rewrite IH by (intros x Hx; apply H; right; exact Hx). f_equal.
    destruct (H g (or_introl eq_refl)) as (t & Ht & ->). destruct (Pa' t Ht) as (_ & _ & _ & (p & Hp) & Hl). unfold source_block.
    assert (E : map (set_pid (ids k)) (filter ln_bool (b_lines t)) = b_lines t).
    { rewrite normal_filter by (intros l Hx; apply (Hl l Hx)). clear - Hp. induction (b_lines t) as [|l r IH]; [reflexivity|]. cbn [map]. rewrite IH by (intros x Hx; apply Hp; right; exact Hx). f_equal. unfold set_pid. rewrite (Hp l (or_introl eq_refl)). reflexivity. }
    rewrite E. reflexivity. }
  rewrite Sb; [|intros g Hg; apply (Permutation_in _ Pg), in_map_iff in Hg; destruct Hg as (t & <- & Ht); exists t; split; [exact Ht|reflexivity]].
  set (G := map (fun g => FText (mkBlk false (hull g) g)) gs).
  assert (PG : Permutation G (map (fun t => FText (para_block t)) ts)) by (unfold G; eapply Permutation_trans; [apply Permutation_map, Pg|]; rewrite map_map; apply Permutation_refl).
  assert (Hf : forall t, In t ts -> box (hull (b_lines t)) /\ (exists l, In l (b_lines t) /\ ry0 (hull (b_lines t)) == ry0 (ln_bbox l)) /\ forall l, In l (b_lines t) -> ry0 (hull (b_lines t)) <= ry0 (ln_bbox l)).
  { intros t Ht. apply hull_facts; [apply (Pa' t Ht)|]. intros l Hl. destruct (Flat t l Ht Hl) as ((Px & D & _) & _). split; assumption. }
  assert (Fb : filter f_bool G = G).
  { apply filter_all. intros b Hb. apply (Permutation_in _ PG), in_map_iff in Hb. destruct Hb as (t & <- & Ht). unfold f_bool. cbn [f_box para_block b_bbox]. apply proper_truthy. apply (Hf t Ht). }
  rewrite Fb. f_equal. unfold sort_fblocks.
  assert (Dr : coll_dir (map f_elem G) = LEFT_RIGHT).
  { assert (D : forall e, In e (map f_elem G) -> e_dir e = LEFT_RIGHT).
    { intros e He. apply in_map_iff in He. destruct He as (b & <- & Hb). apply (Permutation_in _ PG), in_map_iff in Hb. destruct Hb as (t & <- & Ht). cbn [f_elem b_elem e_dir]. unfold block_dir. cbn [b_lines para_block].
      destruct (b_lines t) as [|l r] eqn:El; [reflexivity|]. assert (X : forall x, In x (l :: r) -> ln_dir x = LEFT_RIGHT) by (intros x Hx; rewrite <- El in Hx; apply (Flat t x Ht Hx)). clear - X.
      assert (E1 : existsb (fun l => dir_eqb (ln_dir l) IGNORE) (l :: r) = false).
      { apply Bool.not_true_iff_false. intros K. apply existsb_exists in K. destruct K as (x & Hx & K). rewrite (X x Hx) in K. discriminate K. }
      rewrite E1. destruct (forallb _ r); [apply X; left; reflexivity|reflexivity]. }
    clear - D. unfold coll_dir. destruct (map f_elem G) as [|e r]; [reflexivity|]. destruct (forallb _ r); [apply D; left; reflexivity|reflexivity]. }
  rewrite Dr. change (is_horizontal LEFT_RIGHT) with true. apply sort_key_unique; [exact PG|].
  clear - St Hf Pa' Flat. induction ts as [|t r IH]; [constructor|]. change (lines_in (t :: r)) with (b_lines t ++ lines_in r) in St. cbn [map].
  assert (Sr : StronglySorted beneath (lines_in r)) by (clear - St; induction (b_lines t) as [|a m IHm]; [exact St|]; cbn [app] in St; inversion St; subst; apply IHm; assumption).
  constructor; [apply IH; [exact Sr|intros x Hx; apply Pa'; right; exact Hx|intros x l Hx; apply Flat; right; exact Hx|intros x Hx; apply Hf; right; exact Hx]|].
  rewrite Forall_forall. intros y Hy. apply in_map_iff in Hy. destruct Hy as (u & <- & Hu). cbn [f_elem b_elem e_bbox para_block b_bbox reading_key lex_le].
  destruct (Hf u (or_intror Hu)) as (_ & (m & Hm & Em) & _). destruct (Hf t (or_introl eq_refl)) as (_ & (l & Hl & El) & _).
  assert (B : beneath l m).
  { apply in_split in Hl. destruct Hl as (x & z & E). rewrite E, <- app_assoc in St. cbn [app] in St. assert (Hm' : In m (z ++ lines_in r)) by (apply in_or_app; right; apply in_flat_map; exists u; split; assumption).
    clear - St Hm'. induction x as [|a x IHx]; cbn [app] in St; inversion St as [|? ? S1 F]; subst; [rewrite Forall_forall in F; apply F, Hm'|apply IHx, S1]. }
  assert (L : ry0 (hull (b_lines t)) < ry0 (hull (b_lines u))) by (destruct (flat_ext l (Flat t l (or_introl eq_refl) Hl)) as [A _]; unfold beneath in B; lra).
  unfold para_block; cbn [b_bbox]. set (p := hull (b_lines t)) in *. set (q := hull (b_lines u)) in *. clearbody p q. clear - L.
  assert (K1 : qlt (ry0 q) (ry0 p) = false) by (destruct (qlt_spec (ry0 q) (ry0 p)); [lra|reflexivity]). assert (K2 : qeq (ry0 q) (ry0 p) = false) by (destruct (qeq_spec (ry0 q) (ry0 p)); [lra|reflexivity]).
  rewrite ?K1, ?K2. reflexivity.
Qed.
