(** C32, C33: text lines go to the tables, characters to the cells. *)
From Verif Require Import AssignSpec GeomProof TextProof AssignProof.
From Coq Require Import Permutation.
Open Scope Q_scope.

(* ------------------------------------------------------------------ *)
(** * C32 *)
(** C32: for disjoint tables, the exact destination of every line and of every table block, in
    order: the first table taking it, or the page. *)
Theorem C32_destinations tables bs : Forall proper tables -> ForallOrdPairs apart tables ->
  (forall b, In b bs -> proper (blk_bbox b) /\ forall l, In l (blk_lines b) -> proper (ln_bbox l)) ->
  exists r k, assign_all bs tables = Some (r, k) /\ length r = length tables /\
    (forall i, all_items (nth i r []) = map snd (filter (goes tables (Some i)) (placed bs))) /\
    all_items k = map snd (filter (goes tables None) (placed bs)).
Proof.
  intros Pt Ap Pb. destruct (assign_all_spec tables bs Pt Ap) as (r & k & E & L & S).
  { apply Forall_forall. intros b Hb. apply (Pb b Hb). }
  exists r, k. split; [exact E|]. split; [exact L|]. split; [intros i; apply (S (Some i))|apply (S None)].
Qed.
Print Assumptions C32_destinations.
(** C32: no line and no table block is lost or duplicated. *)
Theorem C32_exactly_once tables bs : Forall proper tables -> ForallOrdPairs apart tables ->
  (forall b, In b bs -> proper (blk_bbox b) /\ forall l, In l (blk_lines b) -> proper (ln_bbox l)) ->
  exists r k, assign_all bs tables = Some (r, k) /\ Permutation (all_items (concat r ++ k)) (all_items bs).
Proof.
  intros Pt Ap Pb. destruct (C32_destinations tables bs Pt Ap Pb) as (r & k & E & L & S & K). exists r, k. split; [exact E|].
  rewrite all_items_app, K.
  assert (Er : all_items (concat r) = concat (map (fun i => map snd (filter (fun x => match home tables x with Some j => Nat.eqb j i | None => false end) (placed bs))) (seq 0 (length tables)))).
  { assert (G : forall rr, (forall i, all_items (nth i rr []) = all_items (nth i rr [])) -> all_items (concat rr) = concat (map (fun i => all_items (nth i rr [])) (seq 0 (length rr)))).
    { clear. intros rr _. induction rr as [|x t IH]; [reflexivity|]. cbn [concat length seq map nth]. rewrite all_items_app. f_equal.
      rewrite <- seq_shift, map_map. exact IH. }
    rewrite (G r (fun _ => eq_refl)), L. f_equal. apply map_ext. intros i. rewrite S. f_equal. }
  rewrite Er. assert (Ei : all_items bs = map snd (placed bs)).
  { unfold all_items, placed. clear. induction bs as [|b t IH]; [reflexivity|]. cbn [flat_map]. rewrite map_app, map_map. cbn [snd]. rewrite map_id. f_equal. exact IH. }
  rewrite Ei. etransitivity; [|apply Permutation_map, (seq_parts (home tables) (length tables) (placed bs)); intros x i _; apply home_bound].
  rewrite map_app, concat_map, map_map. apply Permutation_app; [apply Permutation_refl|].
  rewrite (filter_ext (goes tables None) (fun x => match home tables x with None => true | _ => false end)) by (intros x; unfold goes; destruct (home tables x); reflexivity). apply Permutation_refl.
Qed.
Print Assumptions C32_exactly_once.
(** C32: a block lying in one of the tables is handed over as it is, to that table only. *)
Theorem C32_contained_block t1 t t2 b : Forall proper (t1 ++ t :: t2) -> ForallOrdPairs apart (t1 ++ t :: t2) -> proper (blk_bbox b) ->
  covers t (blk_bbox b) -> assign_block b (blk_lines b) (t1 ++ t :: t2) = Some (none_of t1 ++ [b] :: none_of t2, []).
Proof.
  intros P Ap Pb C. induction t1 as [|u r IH]; cbn [app] in *; inversion P as [|? ? Pu Pr]; subst; inversion Ap as [|? ? Au Ar]; subst; cbn [assign_block].
  - rewrite (rcontains_coversb _ _ Pu Pb). apply coversb_iff in C. rewrite C. reflexivity.
  - rewrite Forall_forall in Au. assert (Z : shared u (blk_bbox b) == 0) by (apply (apart_covers u t); [exact Pb| |exact C]; apply Au, in_or_app; right; left; reflexivity).
    rewrite (rcontains_coversb _ _ Pu Pb). destruct (coversb u (blk_bbox b)) eqn:Cu.
    + exfalso. apply coversb_iff in Cu. rewrite (shared_covers _ _ Cu Pb) in Z. pose proof (area_pos _ Pb). lra.
    + rewrite (rintersects_shared _ _ Pu Pb). destruct (qlt_spec 0 (shared u (blk_bbox b))); [lra|]. cbn [negb]. rewrite (IH Pr Ar). reflexivity.
Qed.
Print Assumptions C32_contained_block.
(** C32: a block outside all tables stays on the page with all its lines in order. *)
Theorem C32_outside_block tables b : Forall proper tables -> (forall t, In t tables -> apart t (blk_bbox b)) -> proper (blk_bbox b) ->
  exists b', assign_block b (blk_lines b) tables = Some (none_of tables, [b']) /\
    match b with BTable _ _ => b' = b | BText _ _ => (forall l, In l (blk_lines b) -> proper (ln_bbox l)) -> blk_lines b' = blk_lines b end.
Proof.
  intros P A Pb. exists (match b with BTable _ _ => b | BText _ _ => text_block (blk_lines b) end). split.
  - induction tables as [|t ts IH]; cbn [assign_block]; [destruct b; reflexivity|]. inversion P as [|? ? Pt Pr]; subst.
    assert (Z : shared t (blk_bbox b) == 0) by (apply shared_apart, A; left; reflexivity).
    rewrite (rcontains_coversb _ _ Pt Pb). destruct (coversb t (blk_bbox b)) eqn:Cu.
    + exfalso. apply coversb_iff in Cu. rewrite (shared_covers _ _ Cu Pb) in Z. pose proof (area_pos _ Pb). lra.
    + rewrite (rintersects_shared _ _ Pt Pb). destruct (qlt_spec 0 (shared t (blk_bbox b))); [lra|]. cbn [negb]. rewrite (IH Pr (fun u Hu => A u (or_intror Hu))). reflexivity.
  - destruct b as [r ls|]; [|reflexivity]. cbn [blk_lines]. intros H. destruct (text_block_lines ls) as (r' & ->). cbn. apply filter_all. intros l Hl. apply proper_truthy, H, Hl.
Qed.
Print Assumptions C32_outside_block.
(** C32: after the distribution every table is back on the page once, after the remaining
    blocks; the contents of a table are offered to all of its cells. *)
Theorem C32_page base bs t ts r k : assign_all bs (map ta_bbox (t :: ts)) = Some (r, k) -> length r = length (t :: ts) -> (forall x, In x (t :: ts) -> proper (ta_bbox x)) ->
  exists cells, assign_to_tables base bs (t :: ts) = Some (cells, filter blk_bool k ++ number_tables base (t :: ts)) /\ length cells = length (t :: ts) /\
    forall i x, nth_error (t :: ts) i = Some x -> nth i cells [] = map (fun c => if rect_bool c then flat_map (assign_cell c) (nth i r []) else []) (ta_cells x).
Proof.
  intros E L P. unfold assign_to_tables. rewrite E. set (tt := t :: ts) in *. eexists. split; [|split].
  - do 2 f_equal. rewrite filter_app. f_equal. apply filter_all. intros b Hb. revert Hb. clear - P. revert base P. induction tt as [|x q IH]; intros base P H; cbn in H; [destruct H|].
    destruct H as [<-|H]; [apply proper_truthy, (P x (or_introl eq_refl))|]. apply (IH (S base)); [|exact H]. intros y Hy. apply P. right. exact Hy.
  - rewrite map_length, combine_length, L. apply Nat.min_id.
  - clear E P. revert r L. clearbody tt. induction tt as [|x q IH]; intros [|y s] L i z Hz; try discriminate L; [destruct i; discriminate Hz|].
    destruct i as [|i]; cbn [nth_error] in Hz; cbn [combine map nth].
    + injection Hz as <-. cbn [fst snd]. unfold assign_cells. destruct y as [|b y]; [|reflexivity]. apply map_ext. intros c. cbn. destruct (rect_bool c); reflexivity.
    + apply IH; [cbn in L; congruence|exact Hz].
Qed.
Print Assumptions C32_page.

Definition ex_line (x0 y0 x1 y1 : Q) : line := mkLine (mkRect x0 y0 x1 y1) LEFT_RIGHT [] None false.
(** C32: witness: three lines; one in the first table, one in the second, one on the page. *)
Example C32_example :
  let tables := [mkRect 0 0 100 50; mkRect 0 60 100 90] in
  let a := ex_line 10 10 50 20 in let b := ex_line 10 52 50 58 in let c := ex_line 10 62 50 70 in
  let bs := [BText (mkRect 10 10 50 70) [a; b; c]] in
  Forall proper tables /\ ForallOrdPairs apart tables /\
  (forall x, In x bs -> proper (blk_bbox x) /\ forall l, In l (blk_lines x) -> proper (ln_bbox l)) /\
  match assign_all bs tables with Some (r, k) => map all_items r = [[ILine a]; [ILine c]] /\ all_items k = [ILine b] | None => False end.
Proof.
  cbv zeta. split; [repeat constructor|]. split.
  { constructor; [constructor; [right; right; left; cbn; discriminate|constructor]|]. constructor; constructor. }
  split; [|vm_compute; split; reflexivity].
  intros x [<-|[]]. cbn. split; [repeat constructor|]. intros l [<-|[<-|[<-|[]]]]; repeat constructor.
Qed.
(** C32 (finding): with overlapping tables a line can be placed twice. *)
Theorem C32_overlapping_tables_refuted : ~ (forall tables bs r k, Forall proper tables ->
  (forall b, In b bs -> proper (blk_bbox b) /\ forall l, In l (blk_lines b) -> proper (ln_bbox l)) ->
  assign_all bs tables = Some (r, k) -> Permutation (all_items (concat r ++ k)) (all_items bs)).
Proof.
  intros H. set (a := ex_line 10 10 50 20). set (b := ex_line 10 30 50 40).
  specialize (H [mkRect 0 0 100 25; mkRect 0 0 100 50] [BText (mkRect 10 10 50 40) [a; b]]).
  eassert (X : Permutation _ _). { eapply H; [repeat constructor| |vm_compute; reflexivity]. intros x [<-|[]]. cbn. split; [repeat constructor|]. intros l [<-|[<-|[]]]; repeat constructor. }
  apply Permutation_length in X. vm_compute in X. discriminate X.
Qed.
Print Assumptions C32_overlapping_tables_refuted.
(** C32 (finding): a line without extent in a block touching a table stops the conversion of the
    page (ZeroDivisionError). *)
Theorem C32_degenerate_line_refuted : ~ (forall tables bs, Forall proper tables -> ForallOrdPairs apart tables ->
  (forall b, In b bs -> proper (blk_bbox b) /\ forall l, In l (blk_lines b) -> ln_bool l = true) -> assign_all bs tables <> None).
Proof.
  intros H. apply (H [mkRect 0 0 100 25] [BText (mkRect 10 10 50 40) [ex_line 10 10 50 40; ex_line 10 30 10 40]]).
  - repeat constructor.
  - repeat constructor.
  - intros x [<-|[]]. cbn. split; [repeat constructor|]. intros l [<-|[<-|[]]]; reflexivity.
  - reflexivity.
Qed.
Print Assumptions C32_degenerate_line_refuted.

(* ------------------------------------------------------------------ *)
(** * C33 *)
(** C33: what a cell gets of a block: the whole block if it lies almost inside; otherwise
    exactly the characters and images belonging to the cell, in order, with their attributes. *)
Theorem C33_cell_content c b : proper c -> nested_block b ->
  (almost_inside c (blk_bbox b) = true -> assign_cell c b = [b]) /\
  (almost_inside c (blk_bbox b) = false -> block_glyphs (assign_cell c b) = filter (belongs c) (line_glyphs (blk_lines b))).
Proof. intros Pc Hn. pose proof (assign_cell_spec c b Pc Hn) as H. destruct (almost_inside c (blk_bbox b)); split; intros E; try discriminate E; exact H. Qed.
Print Assumptions C33_cell_content.
(** C33: a character (or image) inside a cell is found in that cell, whatever its block looks
    like, and belongs to no cell apart from it. *)
Theorem C33_no_loss c b g : proper c -> nested_block b -> In g (line_glyphs (blk_lines b)) -> covers c (glyph_box (fst g)) ->
  In g (block_glyphs (assign_cell c b)) /\ belongs c g = true /\ forall c', proper c' -> apart c c' -> belongs c' g = false.
Proof.
  intros Pc Hn Hg Hc. destruct (block_glyph_box b g Hn Hg) as (Pg & _).
  assert (B : belongs c g = true) by (apply belongs_inside; assumption).
  destruct (C33_cell_content c b Pc Hn) as (H1 & H2). split; [|split; [exact B|]].
  - destruct (almost_inside c (blk_bbox b)).
    + rewrite H1 by reflexivity. unfold block_glyphs. cbn [flat_map]. rewrite app_nil_r. exact Hg.
    + rewrite H2 by reflexivity. apply filter_In. auto.
  - intros c' Pc' Ha. apply belongs_apart; [exact Pc'|exact Pg|]. apply (apart_sub _ c); [apply apart_sym; exact Ha|exact Hc].
Qed.
Print Assumptions C33_no_loss.
(** Two neighbouring cells (left-right or top-bottom) together cover the box. *)
Definition neighbours (c1 c2 g : rect) : Prop :=
  (rx1 c1 == rx0 c2 /\ rx0 c1 <= rx0 g /\ rx1 g <= rx1 c2 /\ qmax (ry0 c1) (ry0 c2) <= ry0 g /\ ry1 g <= qmin (ry1 c1) (ry1 c2)) \/
  (ry1 c1 == ry0 c2 /\ ry0 c1 <= ry0 g /\ ry1 g <= ry1 c2 /\ qmax (rx0 c1) (rx0 c2) <= rx0 g /\ rx1 g <= qmin (rx1 c1) (rx1 c2)).
Lemma split_two x0 x1 y0 y1 a m b (p q : Q) : x0 < x1 -> y0 < y1 -> a <= x0 -> x1 <= b ->
  p == qmax 0 (qmin x1 m - qmax x0 a) * (y1 - y0) -> q == qmax 0 (qmin x1 b - qmax x0 m) * (y1 - y0) -> p + q == (x1 - x0) * (y1 - y0).
Proof.
  intros X Y A B E1 E2. rewrite E1, E2. set (h := y1 - y0). assert (S : qmax 0 (qmin x1 m - qmax x0 a) + qmax 0 (qmin x1 b - qmax x0 m) == x1 - x0).
  { unfold qmax, qmin. qcases; lra. }
  rewrite <- Qmult_plus_distr_l, S. reflexivity.
Qed.
Lemma side_full (y0 y1 c0 c1 : Q) : y0 < y1 -> c0 <= y0 -> y1 <= c1 -> qmax 0 (qmin y1 c1 - qmax y0 c0) == y1 - y0.
Proof. intros. unfold qmax, qmin. qcases; lra. Qed.
Lemma shared_two c1 c2 g : proper g -> neighbours c1 c2 g -> shared g c1 + shared g c2 == area g.
Proof.
  intros (P1 & P2) [(E & A & B & C & D)|(E & A & B & C & D)]; unfold area, rwidth, rheight.
  - pose proof (qmax_l (ry0 c1) (ry0 c2)). pose proof (qmax_r (ry0 c1) (ry0 c2)). pose proof (qmin_l (ry1 c1) (ry1 c2)). pose proof (qmin_r (ry1 c1) (ry1 c2)).
    apply (split_two (rx0 g) (rx1 g) (ry0 g) (ry1 g) (rx0 c1) (rx1 c1) (rx1 c2)); try assumption; unfold shared.
    + rewrite (side_full (ry0 g) (ry1 g) (ry0 c1) (ry1 c1)) by lra. reflexivity.
    + rewrite (side_full (ry0 g) (ry1 g) (ry0 c2) (ry1 c2)) by lra. apply Qmult_comp; [|reflexivity]. apply qmax_comp; [reflexivity|].
      pose proof (qmax_comp (rx0 g) (rx1 c1) (rx0 g) (rx0 c2) (Qeq_refl _) E). lra.
  - pose proof (qmax_l (rx0 c1) (rx0 c2)). pose proof (qmax_r (rx0 c1) (rx0 c2)). pose proof (qmin_l (rx1 c1) (rx1 c2)). pose proof (qmin_r (rx1 c1) (rx1 c2)).
    rewrite (Qmult_comm (rx1 g - rx0 g)).
    apply (split_two (ry0 g) (ry1 g) (rx0 g) (rx1 g) (ry0 c1) (ry1 c1) (ry1 c2)); try assumption; unfold shared.
    + rewrite (side_full (rx0 g) (rx1 g) (rx0 c1) (rx1 c1)) by lra. apply Qmult_comm.
    + rewrite (side_full (rx0 g) (rx1 g) (rx0 c2) (rx1 c2)) by lra. rewrite Qmult_comm. apply Qmult_comp; [|reflexivity]. apply qmax_comp; [reflexivity|].
      pose proof (qmax_comp (ry0 g) (ry1 c1) (ry0 g) (ry0 c2) (Qeq_refl _) E). lra.
Qed.
(** C33: a character crossing the border of two neighbouring cells is found in at least one. *)
Theorem C33_crossing_char c1 c2 b ch a st : proper c1 -> proper c2 -> nested_block b -> In (GChar ch a, st) (line_glyphs (blk_lines b)) ->
  neighbours c1 c2 (ch_bbox ch) ->
  In (GChar ch a, st) (block_glyphs (assign_cell c1 b)) \/ In (GChar ch a, st) (block_glyphs (assign_cell c2 b)).
Proof.
  intros P1 P2 Hn Hg Nb. destruct (block_glyph_box b _ Hn Hg) as (Pg & _). cbn [fst glyph_box] in Pg. pose proof (shared_two c1 c2 _ Pg Nb) as S.
  assert (Fin : forall c, proper c -> belongs c (GChar ch a, st) = true -> In (GChar ch a, st) (block_glyphs (assign_cell c b))).
  { intros c Pc B. destruct (C33_cell_content c b Pc Hn) as (H1 & H2). destruct (almost_inside c (blk_bbox b)).
    - rewrite H1 by reflexivity. unfold block_glyphs. cbn [flat_map]. rewrite app_nil_r. exact Hg.
    - rewrite H2 by reflexivity. apply filter_In. auto. }
  assert (X : belongs c1 (GChar ch a, st) = true \/ belongs c2 (GChar ch a, st) = true).
  { unfold belongs. cbn [fst glyph_share glyph_box]. rewrite !qle_iff. pose proof (qmin_l (area (ch_bbox ch)) (area c1)). pose proof (qmin_l (area (ch_bbox ch)) (area c2)).
    destruct (Qlt_le_dec (shared (ch_bbox ch) c1) ((1 # 2) * area (ch_bbox ch))); [right|left]; lra. }
  destruct X; [left|right]; apply Fin; assumption.
Qed.
Print Assumptions C33_crossing_char.
(** C33: and in two cells apart only if exactly half of it lies in each (for a cell not smaller
    than the character). *)
Theorem C33_twice_means_half c1 c2 ch a st : proper c1 -> proper c2 -> proper (ch_bbox ch) -> apart c1 c2 ->
  area (ch_bbox ch) <= area c1 -> area (ch_bbox ch) <= area c2 ->
  belongs c1 (GChar ch a, st) = true -> belongs c2 (GChar ch a, st) = true ->
  shared (ch_bbox ch) c1 == (1 # 2) * area (ch_bbox ch) /\ shared (ch_bbox ch) c2 == (1 # 2) * area (ch_bbox ch).
Proof.
  intros P1 P2 (Px & Py) Ha L1 L2. unfold belongs. cbn [fst glyph_share glyph_box]. rewrite !qle_iff. intros B1 B2. set (g := ch_bbox ch) in *. clearbody g.
  assert (M1 : qmin (area g) (area c1) == area g) by (destruct (qmin_cases (area g) (area c1)); lra).
  assert (M2 : qmin (area g) (area c2) == area g) by (destruct (qmin_cases (area g) (area c2)); lra).
  assert (S : shared g c1 + shared g c2 <= area g); [|lra]. clear B1 B2 M1 M2 L1 L2.
  assert (Gen : forall x0 x1 y0 y1 u0 u1 v0 v1 w0 w1 z0 z1, x0 < x1 -> y0 < y1 -> u0 < u1 -> v0 < v1 -> w0 < w1 -> z0 < z1 -> u1 <= v0 ->
     qmax 0 (qmin x1 u1 - qmax x0 u0) * qmax 0 (qmin y1 w1 - qmax y0 w0) + qmax 0 (qmin x1 v1 - qmax x0 v0) * qmax 0 (qmin y1 z1 - qmax y0 z0) <= (x1 - x0) * (y1 - y0)).
  { clear. intros. set (dx := qmax 0 (qmin x1 u1 - qmax x0 u0)). set (ex := qmax 0 (qmin x1 v1 - qmax x0 v0)).
    set (dy := qmax 0 (qmin y1 w1 - qmax y0 w0)). set (ey := qmax 0 (qmin y1 z1 - qmax y0 z0)).
    assert (0 <= dx) by apply qmax_l. assert (0 <= ex) by apply qmax_l. assert (0 <= dy) by apply qmax_l. assert (0 <= ey) by apply qmax_l.
    assert (dx + ex <= x1 - x0) by (unfold dx, ex, qmax, qmin; qcases; lra).
    assert (dy <= y1 - y0) by (unfold dy, qmax, qmin; qcases; lra). assert (ey <= y1 - y0) by (unfold ey, qmax, qmin; qcases; lra).
    clearbody dx ex dy ey. set (hh := y1 - y0) in *. set (ww := x1 - x0) in *.
    assert (0 < hh) by (unfold hh; lra). clearbody hh ww. nra. }
  destruct P1 as (P1 & P1'), P2 as (P2 & P2'). unfold shared, area, rwidth, rheight. destruct Ha as [Ha|[Ha|[Ha|Ha]]].
  - apply Gen; assumption.
  - rewrite Qplus_comm. apply Gen; assumption.
  - rewrite (Qmult_comm (rx1 g - rx0 g)), (Qmult_comm (qmax 0 (qmin (rx1 g) (rx1 c1) - qmax (rx0 g) (rx0 c1)))), (Qmult_comm (qmax 0 (qmin (rx1 g) (rx1 c2) - qmax (rx0 g) (rx0 c2)))). apply Gen; assumption.
  - rewrite Qplus_comm. rewrite (Qmult_comm (rx1 g - rx0 g)), (Qmult_comm (qmax 0 (qmin (rx1 g) (rx1 c1) - qmax (rx0 g) (rx0 c1)))), (Qmult_comm (qmax 0 (qmin (rx1 g) (rx1 c2) - qmax (rx0 g) (rx0 c2)))). apply Gen; assumption.
Qed.
Print Assumptions C33_twice_means_half.
Lemma flat_map_ext_in {A B} (f g : A -> list B) l : (forall a, In a l -> f a = g a) -> flat_map f l = flat_map g l.
Proof. induction l as [|x t IH]; intros H; [reflexivity|]. cbn [flat_map]. rewrite (H x (or_introl eq_refl)), IH; [reflexivity|]. intros a Ha. apply H. right. exact Ha. Qed.
(** C33: a table whose cells are apart; every block lies in one cell, or in none (almost) and
    each of its characters and images in one: nothing is lost or duplicated. *)
Theorem C33_exactly_once cells bs :
  Forall proper (filter rect_bool cells) -> ForallOrdPairs apart (filter rect_bool cells) ->
  (forall b, In b bs -> nested_block b /\
     ((exists c, In c (filter rect_bool cells) /\ covers c (blk_bbox b)) \/
      ((forall c, In c (filter rect_bool cells) -> almost_inside c (blk_bbox b) = false) /\
       forall g, In g (line_glyphs (blk_lines b)) -> exists c, In c (filter rect_bool cells) /\ covers c (glyph_box (fst g))))) ->
  Permutation (flat_map block_glyphs (assign_cells cells bs)) (block_glyphs bs).
Proof.
  intros Pc Ap Hb.
  assert (E : flat_map block_glyphs (assign_cells cells bs) = flat_map (fun c => flat_map (fun b => block_glyphs (assign_cell c b)) bs) (filter rect_bool cells)).
  { unfold assign_cells. clear. induction cells as [|c t IH]; [reflexivity|]. cbn [map flat_map filter]. rewrite IH. destruct (rect_bool c); [|reflexivity]. cbn [flat_map]. f_equal.
    clear. induction bs as [|b r IH]; [reflexivity|]. cbn [flat_map]. unfold block_glyphs in *. rewrite flat_map_app. f_equal. exact IH. }
  rewrite E. clear E. set (cs := filter rect_bool cells) in *. clearbody cs.
  assert (Sw : forall bs, Permutation (flat_map (fun c => flat_map (fun b => block_glyphs (assign_cell c b)) bs) cs) (flat_map (fun b => flat_map (fun c => block_glyphs (assign_cell c b)) cs) bs)).
  { clear. induction bs as [|b t IH]; cbn [flat_map].
    - induction cs; cbn; auto.
    - rewrite <- IH. clear. induction cs as [|c r IH]; [constructor|]. cbn [flat_map]. rewrite IH.
      rewrite <- !app_assoc. apply Permutation_app_head. rewrite !app_assoc. apply Permutation_app_tail. apply Permutation_app_comm. }
  rewrite Sw. clear Sw. induction bs as [|b t IH]; [constructor|]. cbn [flat_map]. unfold block_glyphs at 2. cbn [flat_map]. fold (block_glyphs t).
  apply Permutation_app; [|apply IH; intros x Hx; apply Hb; right; exact Hx]. clear IH.
  destruct (Hb b (or_introl eq_refl)) as (Hn & Hc). clear Hb. rewrite Forall_forall in Pc. pose proof (proj1 Hn) as (Pb & _).
  assert (Sp : forall c, In c cs -> exists c1 c2, cs = c1 ++ c :: c2 /\ forall y, In y (c1 ++ c2) -> apart c y).
  { intros c Hi. apply in_split in Hi. destruct Hi as (c1 & c2 & ->). exists c1, c2. split; [reflexivity|]. intros y Hy.
    clear - Ap Hy. induction c1 as [|u r IH]; cbn [app] in *; inversion Ap as [|? ? Au Ar]; subst; rewrite Forall_forall in Au; [apply Au, Hy|].
    destruct Hy as [<-|Hy]; [apply apart_sym, Au, in_or_app; right; left; reflexivity|apply IH; assumption]. }
  destruct Hc as [(c & Ic & Cc)|(Hna & Hg)].
  - destruct (Sp c Ic) as (c1 & c2 & E & Hap). assert (Z : forall l, (forall y, In y l -> In y (c1 ++ c2)) -> flat_map (fun c => block_glyphs (assign_cell c b)) l = []).
    { induction l as [|y l IH]; intros Hl; [reflexivity|]. cbn [flat_map]. rewrite IH by (intros z Hz; apply Hl; right; exact Hz).
      assert (Py : proper y) by (apply Pc; rewrite E; apply in_or_app; destruct (in_app_or _ _ _ (Hl y (or_introl eq_refl))); [left|right; right]; assumption).
      assert (Ay : apart y (blk_bbox b)) by (apply (apart_sub _ c); [apply apart_sym, Hap, Hl; left; reflexivity|exact Cc]).
      destruct (C33_cell_content y b Py Hn) as (_ & H2). rewrite H2 by (apply almost_apart; assumption). rewrite app_nil_r. apply filter_none.
      intros g Hg. destruct (block_glyph_box b g Hn Hg) as (Pg & Cg). apply belongs_apart; [exact Py|exact Pg|exact (apart_sub _ _ _ Ay Cg)]. }
    rewrite E, flat_map_app. cbn [flat_map]. rewrite !Z by (intros y Hy; apply in_or_app; tauto).
    destruct (C33_cell_content c b (Pc c Ic) Hn) as (H1 & _). rewrite H1 by (apply almost_covers; [apply Pc, Ic|exact Pb|exact Cc]).
    unfold block_glyphs. cbn [flat_map app]. rewrite !app_nil_r. reflexivity.
  - rewrite (flat_map_ext_in (fun c => block_glyphs (assign_cell c b)) (fun c => filter (belongs c) (line_glyphs (blk_lines b)))).
    + apply parts_once. intros g Hx. destruct (Hg g Hx) as (c & Ic & Cc). destruct (Sp c Ic) as (c1 & c2 & E & Hap). exists c1, c, c2. split; [exact E|].
      destruct (block_glyph_box b g Hn Hx) as (Pg & _). split; [apply belongs_inside; [apply Pc, Ic|exact Pg|exact Cc]|].
      intros y Hy. apply belongs_apart; [|exact Pg|apply (apart_sub _ c); [apply apart_sym, Hap, Hy|exact Cc]].
      apply Pc. rewrite E. apply in_or_app. destruct (in_app_or _ _ _ Hy); [left|right; right]; assumption.
    + intros c Ic. apply (C33_cell_content c b (Pc c Ic) Hn). apply Hna, Ic.
Qed.
Print Assumptions C33_exactly_once.

Lemma covers_dec a b : coversb a b = true -> covers a b. Proof. apply coversb_iff. Qed.
Lemma proper_dec a : qlt (rx0 a) (rx1 a) && qlt (ry0 a) (ry1 a) = true -> proper a.
Proof. rewrite andb_true_iff, !qlt_iff. intros H. exact H. Qed.
Lemma decimal_dec x z : x == inject_Z z / 10 -> decimal 10 x. Proof. intros H. exists z. exact H. Qed.
(** Concrete blocks: characters given by their boxes in tenths of a point. *)
Definition zrect (a b c d : Z) : rect := mkRect (inject_Z a / 10) (inject_Z b / 10) (inject_Z c / 10) (inject_Z d / 10).
Lemma zrect_decimal a b c d : rect_decimal (zrect a b c d).
Proof. unfold rect_decimal, zrect. cbn [rx0 ry0 rx1 ry1]. repeat split; eexists; reflexivity. Qed.
Definition ex_char (a b c d : Z) : char := mkChar 65 (zrect a b c d).
Definition ex_attrs : attrs := mkAttrs 0 10 0 0.
Definition ex_span (b : rect) (cs : list char) : span := SText (mkTspan cs b [] ex_attrs).
Definition ex_block (b : rect) (ss : list span) : block := BText b [mkLine b LEFT_RIGHT ss None false].
Lemma ex_nested a b c d cs : (a < c)%Z -> (b < d)%Z ->
  (forall x, In x cs -> exists a' b' c' d', x = ex_char a' b' c' d' /\ (a <= a' < c')%Z /\ (c' <= c)%Z /\ (b <= b' < d')%Z /\ (d' <= d)%Z) ->
  nested_block (ex_block (zrect a b c d) [ex_span (zrect a b c d) cs]).
Proof.
  assert (T : forall x y, (x <= y)%Z -> inject_Z x / 10 <= inject_Z y / 10).
  { intros x y H. apply inject_Z_le in H. unfold Qdiv. change (/ 10) with (1 # 10). lra. }
  assert (T' : forall x y, (x < y)%Z -> inject_Z x / 10 < inject_Z y / 10).
  { intros x y H. apply inject_Z_lt in H. unfold Qdiv. change (/ 10) with (1 # 10). lra. }
  intros H1 H2 H. assert (B : box (zrect a b c d)) by (split; [split; apply T'; assumption|apply zrect_decimal]).
  split; [exact B|]. intros l [<-|[]]. split; [|apply covers_refl]. split; [exact B|]. intros s [<-|[]]. split; [|apply covers_refl]. split; [exact B|].
  intros x Hx. destruct (H x Hx) as (a' & b' & c' & d' & -> & K1 & K2 & K3 & K4).
  split; [split; [split; apply T'; lia|apply zrect_decimal]|]. unfold covers. cbn. repeat split; apply T; lia.
Qed.
(** C33: witness: two cells, a block over both with one character in each. *)
Example C33_example :
  let cells := [zrect 0 0 1000 200; rect0; zrect 1000 0 2000 200] in
  let b := ex_block (zrect 500 20 1500 120) [ex_span (zrect 500 20 1500 120) [ex_char 500 20 560 120; ex_char 1440 20 1500 120]] in
  Forall proper (filter rect_bool cells) /\ ForallOrdPairs apart (filter rect_bool cells) /\ nested_block b /\
  (forall c, In c (filter rect_bool cells) -> almost_inside c (blk_bbox b) = false) /\
  (forall g, In g (line_glyphs (blk_lines b)) -> exists c, In c (filter rect_bool cells) /\ covers c (glyph_box (fst g))) /\
  map (fun bs => map fst (block_glyphs bs)) (assign_cells cells [b]) = [[GChar (ex_char 500 20 560 120) ex_attrs]; []; [GChar (ex_char 1440 20 1500 120) ex_attrs]].
Proof.
  cbv zeta. change (filter rect_bool [zrect 0 0 1000 200; rect0; zrect 1000 0 2000 200]) with [zrect 0 0 1000 200; zrect 1000 0 2000 200].
  split; [repeat constructor|]. split.
  { constructor; [constructor; [left; cbn; discriminate|constructor]|]. constructor; constructor. }
  split. { apply ex_nested; try lia. intros x [<-|[<-|[]]]; do 4 eexists; (split; [reflexivity|lia]). }
  split; [intros c [<-|[<-|[]]]; reflexivity|]. split; [|vm_compute; reflexivity].
  intros g [<-|[<-|[]]]; [exists (zrect 0 0 1000 200)|exists (zrect 1000 0 2000 200)]; (split; [cbn; tauto|apply covers_dec; reflexivity]).
Qed.
Definition same_char (c : char) (g : glyph * list style) : bool := match fst g with GChar d _ => coversb (ch_bbox c) (ch_bbox d) && coversb (ch_bbox d) (ch_bbox c) | _ => false end.
(** C33 (finding): a character covering the junction of four cells may be lost. *)
Theorem C33_junction_refuted : ~ (forall cells b g, Forall proper cells -> nested_block b -> In g (line_glyphs (blk_lines b)) ->
  (forall x y, pin x y (glyph_box (fst g)) -> exists c, In c cells /\ pin x y c) -> exists c, In c cells /\ In g (block_glyphs (assign_cell c b))).
Proof.
  intros H. set (b := ex_block (zrect 900 100 1100 300) [ex_span (zrect 900 100 1100 300) [ex_char 900 100 1100 300]]).
  set (cells := [zrect 0 0 1000 200; zrect 1000 0 2000 200; zrect 0 200 1000 400; zrect 1000 200 2000 400]).
  destruct (H cells b (GChar (ex_char 900 100 1100 300) ex_attrs, [])) as (c & Ic & Hc).
  - repeat constructor.
  - apply ex_nested; try lia. intros x [<-|[]]. do 4 eexists; (split; [reflexivity|lia]).
  - left. reflexivity.
  - intros x y ((K1 & K2) & K3 & K4). cbn [fst glyph_box ch_bbox ex_char] in K1, K2, K3, K4. unfold zrect in K1, K2, K3, K4. cbn [rx0 ry0 rx1 ry1] in K1, K2, K3, K4.
    destruct (Qlt_le_dec x 100), (Qlt_le_dec y 20);
    [exists (zrect 0 0 1000 200)|exists (zrect 0 200 1000 400)|exists (zrect 1000 0 2000 200)|exists (zrect 1000 200 2000 400)];
    (split; [cbn; tauto|unfold pin, zrect; cbn [rx0 ry0 rx1 ry1]; unfold Qdiv, inject_Z in *; change (/ 10) with (1 # 10) in *; repeat split; lra]).
  - destruct Ic as [<-|[<-|[<-|[<-|[]]]]]; vm_compute in Hc; exact Hc.
Qed.
Print Assumptions C33_junction_refuted.
(** C33 (finding): a character cut exactly in half appears in both cells; a character at the end
    of a block lying almost inside one cell appears there and in the next cell. *)
Theorem C33_duplicates_refuted : ~ (forall c1 c2 b g, proper c1 -> proper c2 -> apart c1 c2 -> nested_block b -> In g (line_glyphs (blk_lines b)) ->
  ~ shared (glyph_box (fst g)) c1 == (1 # 2) * area (glyph_box (fst g)) ->
  In g (block_glyphs (assign_cell c1 b)) -> ~ In g (block_glyphs (assign_cell c2 b))).
Proof.
  intros H. set (b := ex_block (zrect 50 0 1006 100) [ex_span (zrect 50 0 1006 100) [ex_char 50 0 100 100; ex_char 996 0 1006 100]]).
  apply (H (zrect 0 0 1000 100) (zrect 1000 0 2000 100) b (GChar (ex_char 996 0 1006 100) ex_attrs, [])).
  - apply proper_dec; reflexivity.
  - apply proper_dec; reflexivity.
  - left. cbn. discriminate.
  - apply ex_nested; try lia. intros x [<-|[<-|[]]]; do 4 eexists; (split; [reflexivity|lia]).
  - right. left. reflexivity.
  - vm_compute. discriminate.
  - vm_compute. right. left. reflexivity.
  - vm_compute. left. reflexivity.
Qed.
Print Assumptions C33_duplicates_refuted.
Theorem C33_half_char_refuted : ~ (forall c1 c2 b g, proper c1 -> proper c2 -> apart c1 c2 -> nested_block b ->
  almost_inside c1 (blk_bbox b) = false -> almost_inside c2 (blk_bbox b) = false ->
  In g (block_glyphs (assign_cell c1 b)) -> ~ In g (block_glyphs (assign_cell c2 b))).
Proof.
  intros H. set (b := ex_block (zrect 900 0 1100 100) [ex_span (zrect 900 0 1100 100) [ex_char 950 0 1050 100]]).
  apply (H (zrect 0 0 1000 100) (zrect 1000 0 2000 100) b (GChar (ex_char 950 0 1050 100) ex_attrs, [])).
  - apply proper_dec; reflexivity.
  - apply proper_dec; reflexivity.
  - left. cbn. discriminate.
  - apply ex_nested; try lia. intros x [<-|[]]; do 4 eexists; (split; [reflexivity|lia]).
  - vm_compute. reflexivity.
  - vm_compute. reflexivity.
  - vm_compute. left. reflexivity.
  - vm_compute. left. reflexivity.
Qed.
Print Assumptions C33_half_char_refuted.
(** C33 (finding): an inline image over two neighbouring cells is lost if less than 75% lie in
    each. *)
Theorem C33_image_refuted : ~ (forall c1 c2 b k r st, proper c1 -> proper c2 -> nested_block b -> In (GImage k r, st) (line_glyphs (blk_lines b)) -> neighbours c1 c2 r ->
  In (GImage k r, st) (block_glyphs (assign_cell c1 b)) \/ In (GImage k r, st) (block_glyphs (assign_cell c2 b))).
Proof.
  intros H. set (r := zrect 900 0 1100 100). set (b := ex_block r [SImage 7 r]).
  assert (N : nested_block b).
  { assert (B : box r) by (split; [apply proper_dec; reflexivity|apply zrect_decimal]). split; [exact B|]. intros l [<-|[]]. split; [|apply covers_refl].
    split; [exact B|]. intros s [<-|[]]. split; [split; [exact B|exact I]|apply covers_refl]. }
  destruct (H (zrect 0 0 1000 100) (zrect 1000 0 2000 100) b 7%nat r []) as [X|X].
  - apply proper_dec; reflexivity.
  - apply proper_dec; reflexivity.
  - exact N.
  - left. reflexivity.
  - left. cbn. repeat split; discriminate.
  - vm_compute in X. exact X.
  - vm_compute in X. exact X.
Qed.
Print Assumptions C33_image_refuted.
(** C33: a table (which cannot be divided) is put into a cell only as a whole. *)
Theorem C33_nested_table : forall c k r, proper c -> proper r ->
  assign_cell c (BTable k r) = if almost_inside c r then [BTable k r] else [].
Proof.
  intros c k r Pc Pr. unfold assign_cell. cbn [blk_bbox]. rewrite (contains_almost c r Pc Pr). unfold blk_bool. cbn [blk_bbox].
  rewrite (proper_truthy r Pr). destruct (almost_inside c r); [reflexivity|]. destruct (negb (rect_bool (rinter c r))); reflexivity.
Qed.
Print Assumptions C33_nested_table.
(** C33: a cell gets exactly the shapes it meets, in order. *)
Theorem C33_cell_shapes : forall c ss, proper c -> (forall s, In s ss -> proper (sh_bbox s) /\ 0 <= rx0 (sh_bbox s)) -> 0 <= rx0 c ->
  assign_cell_shapes c ss = filter (fun s => meets c (sh_bbox s)) ss.
Proof.
  intros c ss Pc H Hc. unfold assign_cell_shapes. induction ss as [|s t IH]; [reflexivity|]. cbn [filter].
  rewrite (IH (fun x Hx => H x (or_intror Hx))). destruct (H s (or_introl eq_refl)) as [Ps P0].
  assert (E : rect_bool (rinter c (sh_bbox s)) && shape_bool s = meets c (sh_bbox s)); [|rewrite E; reflexivity].
  assert (Eb : shape_bool s = true) by (apply proper_truthy; exact Ps). rewrite Eb, andb_true_r.
  rewrite (rinter_proper _ _ Pc Ps). destruct Pc as [C1 C2], Ps as [S1 S2]. unfold meets. set (b := sh_bbox s) in *. clearbody b.
  set (x1 := qmin (rx1 c) (rx1 b)). set (x0 := qmax (rx0 c) (rx0 b)). set (y1 := qmin (ry1 c) (ry1 b)). set (y0 := qmax (ry0 c) (ry0 b)).
  assert (Hx : x0 <= x1 <-> rx0 c <= rx1 b /\ rx0 b <= rx1 c).
  { subst x0 x1. destruct (qmin_cases (rx1 c) (rx1 b)) as [(-> & ?)|(-> & ?)], (qmax_cases (rx0 c) (rx0 b)) as [(-> & ?)|(-> & ?)]; split; intros; repeat split; lra. }
  assert (Hy : y0 <= y1 <-> ry0 c <= ry1 b /\ ry0 b <= ry1 c).
  { subst y0 y1. destruct (qmin_cases (ry1 c) (ry1 b)) as [(-> & ?)|(-> & ?)], (qmax_cases (ry0 c) (ry0 b)) as [(-> & ?)|(-> & ?)]; split; intros; repeat split; lra. }
  assert (Hp : 0 < x1) by (subst x1; destruct (qmin_cases (rx1 c) (rx1 b)) as [(-> & ?)|(-> & ?)]; lra).
  clearbody x0 x1 y0 y1. apply eq_true_iff_eq. rewrite !andb_true_iff, !qle_iff.
  destruct (qlt_spec x1 x0) as [L|L]; cbn [orb].
  - cbn. split; [discriminate|]. intros G. assert (x0 <= x1) by tauto. lra.
  - destruct (qlt_spec y1 y0) as [L'|L']; cbn [orb].
    + split; [discriminate|]. intros G. assert (y0 <= y1) by tauto. lra.
    + unfold rect_bool. cbn [rx0 ry0 rx1 ry1]. destruct (qeq_spec x1 0) as [Z|_]; [lra|]. rewrite andb_false_r. cbn [andb negb].
      assert (x0 <= x1) by lra. assert (y0 <= y1) by lra. tauto.
Qed.
Print Assumptions C33_cell_shapes.
Example C33_shapes_nonvacuous : let s := fun r => mkShape KFill r 0 R_UNDEFINED 0 0 0 0 0 0%nat in
  assign_cell_shapes (zrect 100 100 500 200) [s (zrect 0 0 50 50); s (zrect 90 190 120 250); s (zrect 500 100 600 200)] = [s (zrect 90 190 120 250); s (zrect 500 100 600 200)].
Proof. vm_compute. reflexivity. Qed.
Example C33_table_nonvacuous : assign_cell (zrect 0 0 500 200) (BTable 3 (zrect 10 10 490 190)) = [BTable 3 (zrect 10 10 490 190)] /\
  assign_cell (zrect 0 0 500 200) (BTable 3 (zrect 10 10 990 190)) = [].
Proof. split; vm_compute; reflexivity. Qed.
