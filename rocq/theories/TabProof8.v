(** A page with a ruled table is parsed to the text above it, the table with the texts of its cells, and the text below it. *)
From Verif Require GeomProof TableProps TableSpec TableProof FmtProof5 TabProof7.
From Verif Require Import AssignSpec AssignProof InterProof GraphProof TextProof PySort FlowModel FlowSpec FlowProof FlowProof2 FlowProps LayoutSpec LayoutProof.
From Verif Require Import CleanSpec CleanProof CleanProof2 CleanProof3 CleanProps.
From Verif Require Import TabSpec GridProof5 GridProof6 GridProof7 LayoutProof2.
From Verif Require Import CleanModel CleanSpec FlowModel FlowSpec LayoutModel WholeModel WholeSpec WholeProof WholeProof2 WholeProof3 WholeProof4 WholeProof5 WholeProof6 PlaceSpec PlaceProof3 TabProof TabProof2 TabProof3 TabProof4 TabProof5 TabProof6.
From Verif Require PageModel ShapeModel.
From Verif Require Import GridSpec.
From Verif Require Import CleanModel.
From Coq Require Import Lia Lqa Permutation Sorting.Sorted.
Notation length := List.length.
Notation pairwise := BorderProof3.pairwise.
Open Scope Q_scope.

(* ---------------- shapes ---------------- *)
Definition renamed (s s' : shape) : Prop := exists u, s' = mkShape (sh_kind s) (sh_bbox s) (sh_color s) (sh_type s) (sh_x0 s) (sh_y0 s) (sh_x1 s) (sh_y1 s) (sh_width s) u.
Lemma named_renamed l : forall k, Forall2 renamed l (name_shapes k l).
Proof. induction l as [|s t IH]; intros k; [constructor|]. cbn [name_shapes]. constructor; [|apply IH]. destruct s as [kd b c ty x0 y0 x1 y1 w u]. cbn [sh_kind]. destruct kd; eexists; reflexivity. Qed.
Lemma named_uri l : (forall s, In s l -> sh_kind s = KStroke) -> forall k i, (i < length l)%nat -> sh_uri (nth i (name_shapes k l) empty_stroke) = (k + i)%nat.
Proof.
  induction l as [|s t IH]; intros H k i Hi; [cbn in Hi; lia|]. cbn [name_shapes]. destruct i as [|i]; cbn [nth].
  - rewrite (H s (or_introl eq_refl)). cbn [sh_uri]. lia.
  - rewrite IH; [lia|intros x Hx; apply H; right; exact Hx|cbn in Hi; lia].
Qed.
Lemma named_length l : forall k, length (name_shapes k l) = length l.
Proof. induction l as [|s t IH]; intros k; [reflexivity|]. cbn [name_shapes List.length]. rewrite IH. reflexivity. Qed.
Lemma rule_renamed w x0 y0 x1 y1 s s' : renamed s s' -> rule w x0 y0 x1 y1 s <-> rule w x0 y0 x1 y1 s'.
Proof.
  intros (u & ->). split.
  - intros (c & ty & v & ->). exists c, ty, u. reflexivity.
  - intros (c & ty & v & E). destruct s as [kd b col typ a1 a2 a3 a4 w' u']. cbn in E. injection E as -> -> -> -> -> -> -> -> -> ->. eexists _, _, _. reflexivity.
Qed.
Lemma drawn_perm g l m : Permutation l m -> drawn_grid g l -> drawn_grid g m.
Proof. intros P (hs & vs & Q & R). exists hs, vs. split; [eapply Permutation_trans; [apply Permutation_sym, P|exact Q]|exact R]. Qed.
Lemma drawn_renamed g l m : Forall2 renamed l m -> drawn_grid g l -> drawn_grid g m.
Proof.
  intros F (hs & vs & P & Lh & Lv & Rh & Rv). destruct (Permutation_Forall2 P F) as (m' & Pm & F'). apply Forall2_app_inv_l in F'. destruct F' as (hs' & vs' & Fh & Fv & ->).
  assert (Ln : forall (a b : list shape), Forall2 renamed a b -> length b = length a) by (clear; induction 1; cbn [List.length]; congruence).
  assert (Nt : forall (a b : list shape) i s, Forall2 renamed a b -> nth_error b i = Some s -> exists s0, nth_error a i = Some s0 /\ renamed s0 s).
  { clear. intros a b i s F. revert i. induction F as [|x y a b R F IH]; intros i E; [destruct i; discriminate|]. destruct i as [|i]; [injection E as <-; exists x; auto|apply IH, E]. }
  exists hs', vs'. split; [exact Pm|]. split; [rewrite (Ln _ _ Fh); exact Lh|]. split; [rewrite (Ln _ _ Fv); exact Lv|].
  split; intros i s E; [destruct (Nt _ _ i s Fh E) as (s0 & E0 & R)|destruct (Nt _ _ i s Fv E) as (s0 & E0 & R)]; apply (rule_renamed _ _ _ _ _ _ _ R); [apply Rh, E0|apply Rv, E0].
Qed.
Lemma map_nth_all {A} (l : list A) dflt : map (fun k => nth k l dflt) (seq 0 (length l)) = l.
Proof.
  assert (G : forall pre, map (fun k => nth k (pre ++ l) dflt) (seq (length pre) (length l)) = l); [|apply (G [])].
  induction l as [|x t IH]; intros pre; [reflexivity|]. cbn [List.length seq map]. rewrite app_nth2, Nat.sub_diag by lia. cbn [nth]. f_equal.
  specialize (IH (pre ++ [x])). rewrite <- app_assoc in IH. cbn [app] in IH. rewrite app_length in IH. cbn [List.length] in IH. rewrite Nat.add_1_r in IH. exact IH.
Qed.
(** Strokes that no line of text contains may be borders or underlines, and nothing else. *)
Lemma stroke_plain s bs : sh_kind s = KStroke -> shape_bool s = true -> (forall b l, In b bs -> In l (ShapeModel.tb_lines b) -> contains l (sh_bbox s) 1 = false) ->
  ShapeModel.classify bs (ShapeModel.mkGroups [] [] [] []) s = ShapeModel.mkGroups [s] [] [s] [].
Proof.
  intros K B H. unfold ShapeModel.classify, ShapeModel.semantic_type. rewrite K.
  assert (E : ShapeModel.semantic_loop s bs = R_UNDEFINED).
  { induction bs as [|b t IH]; [reflexivity|]. cbn [ShapeModel.semantic_loop]. rewrite IH by (intros x l Hx; apply H; right; exact Hx).
    assert (C : ShapeModel.check_semantic s b = R_UNDEFINED); [|rewrite C; cbn [rtype_eqb negb]; destruct (qlt _ _); [reflexivity|destruct (qlt _ _); reflexivity]].
    unfold ShapeModel.check_semantic. rewrite K. destruct (contains (ShapeModel.tb_bbox b) (sh_bbox s) 1); [|reflexivity]. destruct (existsb _ _) eqn:X; [|reflexivity]. apply existsb_exists in X. destruct X as (l & Hl & X). rewrite (H b l (or_introl eq_refl) Hl) in X. discriminate X. }
  rewrite E. cbn [kind_eqb]. unfold ShapeModel.add_if. rewrite B. reflexivity.
Qed.
Lemma categorise_strokes w bs l : (forall k, In k l -> sh_kind (shape_at w k) = KStroke /\ shape_bool (shape_at w k) = true /\ forall b x, In b (shape_blocks bs) -> In x (ShapeModel.tb_lines b) -> contains x (sh_bbox (shape_at w k)) 1 = false) ->
  categorise w bs l = mkLS l l [] l [].
Proof.
  intros H. assert (C : forall k, In k l -> ShapeModel.classify (shape_blocks bs) (ShapeModel.mkGroups [] [] [] []) (shape_at w k) = ShapeModel.mkGroups [shape_at w k] [] [shape_at w k] []).
  { intros k Hk. destruct (H k Hk) as (A & B & D). apply stroke_plain; assumption. }
  unfold categorise. f_equal; unfold in_group.
  - apply filter_all. intros k Hk. rewrite (C k Hk). reflexivity.
  - apply filter_none. intros k Hk. rewrite (C k Hk). reflexivity.
  - apply filter_all. intros k Hk. rewrite (C k Hk). reflexivity.
  - apply filter_none. intros k Hk. rewrite (C k Hk). reflexivity.
Qed.

(* ---------------- lines ---------------- *)
Lemma pw_app {A} (R : A -> A -> Prop) l k : pairwise R l -> pairwise R k -> (forall x y, In x l -> In y k -> R x y) -> pairwise R (l ++ k).
Proof.
  intros Pl Pk. induction Pl as [|x l F Pl IH]; intros H; [exact Pk|]. cbn [app]. constructor; [|apply IH; intros a b Ha; apply H; right; exact Ha].
  intros y Hy. apply in_app_or in Hy. destruct Hy as [Hy|Hy]; [apply F, Hy|apply H; [left; reflexivity|exact Hy]].
Qed.
Lemma pw_lines_seq (R : line -> line -> Prop) (f : nat -> list tblock) n : forall k, (forall i, (k <= i < k + n)%nat -> pairwise R (lines_in (f i))) ->
  (forall i j x y, (k <= i < j)%nat -> (j < k + n)%nat -> In x (lines_in (f i)) -> In y (lines_in (f j)) -> R x y) -> pairwise R (lines_in (flat_map f (seq k n))).
Proof.
  induction n as [|n IH]; intros k H1 H2; [constructor|]. cbn [seq flat_map]. rewrite lines_in_app. apply pw_app; [apply H1; lia|apply IH; [intros i Hi; apply H1; lia|intros i j x y Hi Hj; apply H2; lia]|].
  intros x y Hx Hy. apply in_flat_map in Hy. destruct Hy as (t & Ht & Hy). apply in_flat_map in Ht. destruct Ht as (j & Hj & Ht). apply in_seq in Hj. apply (H2 k j x y); [lia|lia|exact Hx|]. apply in_flat_map. exists t. split; assumption.
Qed.
Lemma sorted_pw (R S : line -> line -> Prop) l : (forall a b, R a b -> S a b) -> StronglySorted R l -> pairwise S l.
Proof. intros H. induction 1 as [|x l _ IH F]; constructor; [|exact IH]. rewrite Forall_forall in F. intros y Hy. apply H, F, Hy. Qed.

Section Page.
Variable order : list nat -> list nat.
Variable rorder : list (Q * Q) -> list (Q * Q).
Variable ids : nat -> nat.
Variable pm : params.
Hypothesis Ho : forall l, Permutation l (order l).
Variables (d : Q) (p : rawpage) (g : grid) (r : nat -> nat -> TableSpec.region).
Variables (above below : list tblock) (cells : nat -> nat -> list tblock).
Let m := p_line_merging pm.
Hypothesis Set_ : table_settings pm d g.
Hypothesis Pg : table_page (p_image_gap pm) m p g r above cells below.
Let F := frame_box g.
Let texts := all_texts g above below cells.

Lemma pd1 : 1 <= d. Proof. destruct Set_ as (_ & _ & _ & _ & _ & _ & _ & _ & _ & H & _). lra. Qed.
Lemma pok : grid_ok d g. Proof. apply Set_. Qed.
Lemma ptx : table_texts m g r above cells below. Proof. apply Pg. Qed.
Lemma ptl : tiles g r. Proof. apply Pg. Qed.
Lemma pm0 : 0 <= m. Proof. apply Set_. Qed.

Lemma texts_clear : pairwise (clear_of m) (lines_in texts).
Proof.
  pose proof ptx as (_ & _ & Ta & Tb & Tc & A & B & _). apply top_down_lines in Ta. apply top_down_lines in Tb. pose proof pm0 as M.
  assert (Sub : forall a b, beneath a b -> clear_of m a b) by (intros a b H; left; exact H).
  assert (InA : forall t, In t above -> In t texts) by (intros t Ht; apply in_or_app; left; exact Ht).
  assert (InB : forall t, In t below -> In t texts) by (intros t Ht; apply in_or_app; right; apply in_or_app; right; exact Ht).
  assert (InG : forall t, In t (in_grid g cells) -> In t texts) by (intros t Ht; apply in_or_app; right; apply in_or_app; left; exact Ht).
  assert (La : forall l, In l (lines_in above) -> ry1 (ln_bbox l) < ry0 F) by (intros l Hl; apply in_flat_map in Hl; destruct Hl as (t & Ht & Hl); destruct (line_place m g r above below cells ptx t l (InA t Ht) Hl) as (_ & _ & (_ & _ & _ & C) & _); specialize (A t Ht); fold F in A; lra).
  assert (Lb : forall l, In l (lines_in below) -> ry1 F < ry0 (ln_bbox l)) by (intros l Hl; apply in_flat_map in Hl; destruct Hl as (t & Ht & Hl); destruct (line_place m g r above below cells ptx t l (InB t Ht) Hl) as (_ & _ & (_ & C & _ & _) & _); specialize (B t Ht); fold F in B; lra).
  assert (Lc : forall l, In l (lines_in (in_grid g cells)) -> ry0 F <= ry0 (ln_bbox l) /\ ry1 (ln_bbox l) <= ry1 F).
  { intros l Hl. apply in_flat_map in Hl. destruct Hl as (t & Ht & Hl). apply in_grid_In in Ht. destruct Ht as (i & j & Hi & Hj & Ht). destruct (cell_line m g r above below cells ptx i j t l Hi Hj Ht Hl) as (k & n & E & (_ & C2 & _ & C4) & _).
    destruct (tile_box d g r pd1 pok ptl i j k n Hi Hj E) as (_ & (_ & F2 & _ & F4)). unfold F. lra. }
  destruct (frame_proper d g pd1 pok) as ((_ & PF) & _). fold F in PF.
  unfold texts, all_texts. rewrite !lines_in_app. apply pw_app; [apply (sorted_pw beneath); assumption|apply pw_app; [|apply (sorted_pw beneath); assumption|]|].
  - unfold in_grid. apply pw_lines_seq.
    + intros i Hi. apply pw_lines_seq; [intros j Hj; apply (sorted_pw beneath); [exact Sub|apply top_down_lines, Tc]|].
      intros j j' x y Hj Hj' Hx Hy. apply in_flat_map in Hx. destruct Hx as (t & Ht & Hx). apply in_flat_map in Hy. destruct Hy as (u & Hu & Hy).
      destruct (cell_line m g r above below cells ptx i j t x) as (k & n & E & Cx & (_ & W1 & W2) & _); try assumption; try lia.
      destruct (cell_line m g r above below cells ptx i j' u y) as (k' & n' & E' & Cy & (_ & W3 & W4) & _); try assumption; try lia.
      assert (Ap := places_apart d g r pd1 pok ptl i j k n i j' k' n' ltac:(lia) ltac:(lia) ltac:(lia) ltac:(lia) E E' ltac:(lia)).
      destruct (line_place m g r above below cells ptx t x) as (_ & _ & (X1 & _ & X3 & _) & _); [apply (cell_in g above below cells i j); [lia|lia|exact Ht]|exact Hx|].
      destruct (line_place m g r above below cells ptx u y) as (_ & _ & (Y1 & _ & Y3 & _) & _); [apply (cell_in g above below cells i j'); [lia|lia|exact Hu]|exact Hy|].
      destruct Cx as (_ & Cx2 & _ & Cx4), Cy as (_ & Cy2 & _ & Cy4). unfold clear_of, beneath. unfold apart in Ap. destruct Ap as [Ap|[Ap|[Ap|Ap]]]; [right; right; left|right; right; right|left|right; left]; lra.
    + intros i i' x y Hi Hi' Hx Hy. apply in_flat_map in Hx. destruct Hx as (t & Ht & Hx). apply in_flat_map in Ht. destruct Ht as (j & Hj & Ht). apply in_seq in Hj. apply in_flat_map in Hy. destruct Hy as (u & Hu & Hy). apply in_flat_map in Hu. destruct Hu as (j' & Hj' & Hu). apply in_seq in Hj'.
      destruct (cell_line m g r above below cells ptx i j t x) as (k & n & E & Cx & (_ & W1 & W2) & _); try assumption; try lia.
      destruct (cell_line m g r above below cells ptx i' j' u y) as (k' & n' & E' & Cy & (_ & W3 & W4) & _); try assumption; try lia.
      assert (Ap := places_apart d g r pd1 pok ptl i j k n i' j' k' n' ltac:(lia) ltac:(lia) ltac:(lia) ltac:(lia) E E' ltac:(lia)).
      destruct (line_place m g r above below cells ptx t x) as (_ & _ & (X1 & _ & X3 & _) & _); [apply (cell_in g above below cells i j); [lia|lia|exact Ht]|exact Hx|].
      destruct (line_place m g r above below cells ptx u y) as (_ & _ & (Y1 & _ & Y3 & _) & _); [apply (cell_in g above below cells i' j'); [lia|lia|exact Hu]|exact Hy|].
      destruct Cx as (_ & Cx2 & _ & Cx4), Cy as (_ & Cy2 & _ & Cy4). unfold clear_of, beneath. unfold apart in Ap. destruct Ap as [Ap|[Ap|[Ap|Ap]]]; [right; right; left|right; right; right|left|right; left]; lra.
  - intros x y Hx Hy. left. unfold beneath. specialize (Lb y Hy). destruct (Lc x Hx). lra.
  - intros x y Hx Hy. left. unfold beneath. specialize (La x Hx). apply in_app_or in Hy. destruct Hy as [Hy|Hy]; [destruct (Lc y Hy)|specialize (Lb y Hy)]; lra.
Qed.
Lemma hulled_covers c b : hulled b -> (forall l, In l (b_lines b) -> box (ln_bbox l)) -> (forall l, In l (b_lines b) -> Rect.covers c (ln_bbox l)) -> Rect.covers c (b_bbox b).
Proof.
  intros (_ & N & h & E & H) B C. assert (Nm : h <> []) by (destruct (b_lines b) as [|l t]; [congruence|]; intros ->; apply (H l); left; reflexivity).
  destruct (hull_sides h Nm (fun l Hl => B l (proj1 (H l) Hl))) as (_ & ((l1 & H1 & E1) & _) & ((l2 & H2 & E2) & _) & ((l3 & H3 & E3) & _) & ((l4 & H4 & E4) & _)). rewrite E.
  destruct (C l1 (proj1 (H l1) H1)) as (A1 & _), (C l2 (proj1 (H l2) H2)) as (_ & _ & A2 & _), (C l3 (proj1 (H l3) H3)) as (_ & A3 & _), (C l4 (proj1 (H l4) H4)) as (_ & _ & _ & A4). unfold Rect.covers. lra.
Qed.
(** A block of the cleaned page is above, inside or below the frame. *)
Definition zone (q : nat) (b : rect) : Prop := match q with O => ry1 b < ry0 F | S O => Rect.covers F b | _ => ry1 F < ry0 b end.
Lemma text_zone t : In t texts -> exists q, (q < 3)%nat /\ zone q (b_bbox t).
Proof.
  intros Ht. pose proof ptx as (_ & _ & _ & _ & _ & A & B & C). unfold texts, all_texts in Ht. apply in_app_or in Ht. destruct Ht as [Ht|Ht]; [exists 0%nat; split; [lia|apply A, Ht]|]. apply in_app_or in Ht. destruct Ht as [Ht|Ht]; [|exists 2%nat; split; [lia|apply B, Ht]].
  exists 1%nat. split; [lia|]. apply in_grid_In in Ht. destruct Ht as (i & j & Hi & Hj & Ht). destruct (C i j t Hi Hj Ht) as ((k & n & E & (W & _)) & _). destruct (tile_box d g r pd1 pok ptl i j k n Hi Hj E) as (_ & Cf). exact (GeomProof.covers_trans _ _ _ Cf W).
Qed.
Lemma zone_sub q a b : proper b -> Rect.covers a b -> zone q a -> zone q b.
Proof. intros (_ & P) C Z. destruct q as [|[|q]]; cbn [zone] in *; [destruct C as (_ & _ & _ & C4); lra|exact (GeomProof.covers_trans _ _ _ Z C)|destruct C as (_ & C2 & _); lra]. Qed.
Lemma zone_one q q' a b : proper a -> proper b -> (q < 3)%nat -> (q' < 3)%nat -> zone q a -> zone q' b -> beside a b -> q = q'.
Proof.
  intros (_ & Pa) (_ & Pb) Hq Hq' Z Z' (y & Ya & Yb). destruct (frame_proper d g pd1 pok) as ((_ & PF) & _). fold F in PF.
  destruct q as [|[|[|q]]]; [| | |lia]; (destruct q' as [|[|[|q']]]; [| | |lia]); cbn [zone] in *; try reflexivity; exfalso; unfold Rect.covers in *; lra.
Qed.
Lemma block_zone out b : Permutation (lines_in out) (lines_in texts) -> In b out -> hulled b ->
  (forall P : tblock -> Prop, (forall a b, In a texts -> In b texts -> beside (b_bbox a) (b_bbox b) -> (P a <-> P b)) ->
      forall b l k, In b out -> In l (b_lines b) -> In k (b_lines b) -> exists x y, In x texts /\ In y texts /\ In l (b_lines x) /\ In k (b_lines y) /\ (P x -> P y)) ->
  zoned g b.
Proof.
  intros Pl Hb Hu Pr.
  assert (Tp : forall t, In t texts -> proper (b_bbox t)) by (intros t Ht; destruct (text_paragraph m g r above below cells ptx t Ht) as (_ & (_ & P & _) & _); exact P).
  assert (Tl : forall t l, In t texts -> In l (b_lines t) -> box (ln_bbox l) /\ Rect.covers (b_bbox t) (ln_bbox l)).
  { intros t l Ht Hl. destruct (line_place m g r above below cells ptx t l Ht Hl) as ((P1 & P2 & _) & _ & C & _). split; [split; assumption|exact C]. }
  assert (Bl : forall l, In l (b_lines b) -> exists t, In t texts /\ In l (b_lines t)).
  { intros l Hl. apply in_flat_map. eapply Permutation_in; [exact Pl|]. apply in_flat_map. exists b. split; assumption. }
  assert (Bb : forall l, In l (b_lines b) -> box (ln_bbox l)) by (intros l Hl; destruct (Bl l Hl) as (t & Ht & Hl'); apply (Tl t l Ht Hl')).
  pose proof Hu as (_ & Ne & _). destruct (b_lines b) as [|l0 rest] eqn:Eb; [congruence|]. assert (I0 : In l0 (b_lines b)) by (rewrite Eb; left; reflexivity). rewrite <- Eb in *.
  destruct (Bl l0 I0) as (t0 & Ht0 & Hl0). destruct (text_zone t0 Ht0) as (q & Hq & Z0).
  assert (All : forall k, In k (b_lines b) -> zone q (ln_bbox k)).
  { intros k Hk. destruct (Pr (fun t => zone q (b_bbox t))) with (b := b) (l := l0) (k := k) as (x & y & Hx & Hy & Lx & Ly & Im); try assumption.
    - intros a c Ha Hc Be. destruct (text_zone a Ha) as (qa & Qa & Za), (text_zone c Hc) as (qc & Qc & Zc). pose proof (zone_one _ _ _ _ (Tp a Ha) (Tp c Hc) Qa Qc Za Zc Be) as Eq. subst qc.
      assert (Be1 : beside (b_bbox a) (b_bbox a)) by (destruct (Tp a Ha); exists (ry0 (b_bbox a)); lra). assert (Be2 : beside (b_bbox c) (b_bbox c)) by (destruct (Tp c Hc); exists (ry0 (b_bbox c)); lra).
      split; intros Z; [rewrite (zone_one q qa _ _ (Tp a Ha) (Tp a Ha) Hq Qa Z Za Be1); exact Zc|rewrite (zone_one q qa _ _ (Tp c Hc) (Tp c Hc) Hq Qc Z Zc Be2); exact Za].
    - destruct (Tl y k Hy Ly) as ((Pk & _) & Ck). apply (zone_sub q (b_bbox y) _ Pk Ck). apply Im.
      destruct (text_zone x Hx) as (qx & Qx & Zx). destruct (Tl x l0 Hx Lx) as ((P0 & _) & C0). destruct (Tl t0 l0 Ht0 Hl0) as (_ & C1).
      assert (Be : beside (ln_bbox l0) (ln_bbox l0)) by (destruct P0; exists (ry0 (ln_bbox l0)); lra).
      rewrite (zone_one q qx _ _ P0 P0 Hq Qx (zone_sub _ _ _ P0 C1 Z0) (zone_sub _ _ _ P0 C0 Zx) Be). exact Zx. }
  destruct (hulled_box b Hu Bb) as (_ & _ & (u & Hu' & Eu) & (v & Hv & Ev)). unfold zoned. fold F.
  destruct q as [|[|q]]; [right; left; specialize (All v Hv); cbn [zone] in All; lra|left; apply hulled_covers; assumption|right; right; specialize (All u Hu'); cbn [zone] in All; lra].
Qed.
End Page.
