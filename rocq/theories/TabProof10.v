(** The spacing of a page with a table, and what is written of it. *)
From Verif Require GeomProof TableProps TableSpec TableProof FmtProof5 TabProof7.
From Verif Require Import AssignSpec AssignProof InterProof GraphProof TextProof PySort FlowModel FlowSpec FlowProof FlowProof2 FlowProps LayoutSpec LayoutProof.
From Verif Require Import CleanSpec CleanProof CleanProof2 CleanProof3 CleanProps.
From Verif Require Import TabSpec GridProof5 GridProof6 GridProof7 LayoutProof2.
From Verif Require Import CleanModel CleanSpec FlowModel FlowSpec LayoutModel WholeModel WholeSpec WholeProof WholeProof2 WholeProof3 WholeProof4 WholeProof5 WholeProof6 PlaceSpec PlaceProof3 TabProof TabProof2 TabProof3 TabProof4 TabProof5 TabProof6 TabProof8 TabProof9 WholeProof7.
From Verif Require PageModel ShapeModel.
From Verif Require Import GridSpec.
From Verif Require Import CleanModel.
From Coq Require Import Lia Lqa Permutation Sorting.Sorted.
Notation length := List.length.
Notation pairwise := BorderProof3.pairwise.
Open Scope Q_scope.

From Verif Require Import SpacingModel TreeModel TreeSpec TreeProof TreeProof3 TreeProof5 TreeProof6 TreeProps.
From Verif Require SpacingProps.
From Verif Require Import WholeModel LayoutModel.
From Verif Require Import GridSpec.
From Verif Require Import CleanModel.

(* ---------------- rows and cells ---------------- *)
Lemma cut_nth {A} c : forall n (l : list A) i, (i < n)%nat -> nth_error (cut (repeat c n) l) i = Some (firstn c (skipn (i * c) l)).
Proof.
  induction n as [|n IH]; intros l i Hi; [lia|]. cbn [repeat cut]. destruct i as [|i]; [reflexivity|]. cbn [nth_error]. rewrite IH by lia. f_equal. f_equal.
  cbn [Nat.mul]. clear. revert l. induction c as [|c IH]; intros l; [reflexivity|]. destruct l as [|x l]; [cbn [Nat.add skipn]; destruct (i * S c)%nat; reflexivity|]. cbn [Nat.add skipn].
  assert (G : forall (l : list A) a b, skipn a (skipn b l) = skipn (b + a) l); [|apply G]. clear. intros l a b. revert l. induction b as [|b IH]; intros l; [reflexivity|]. destruct l; [destruct a; reflexivity|apply IH].
Qed.
Lemma nth_firstn {A} (l : list A) : forall c k j, (j < c)%nat -> nth_error (firstn c (skipn k l)) j = nth_error l (k + j).
Proof.
  induction l as [|x l IH]; intros c k j Hj.
  - replace (skipn k (@nil A)) with (@nil A) by (destruct k; reflexivity). replace (firstn c (@nil A)) with (@nil A) by (destruct c; reflexivity). destruct j, k; reflexivity.
  - destruct k as [|k]; [|cbn [skipn Nat.add nth_error]; apply IH, Hj]. cbn [skipn Nat.add]. destruct c as [|c]; [lia|]. destruct j as [|j]; [reflexivity|]. cbn [firstn nth_error]. apply (IH c 0%nat j). lia.
Qed.
Lemma concat_nth {A} c (ls : list (list A)) : (forall l, In l ls -> length l = c) -> forall i l j, nth_error ls i = Some l -> (j < c)%nat -> nth_error (concat ls) (i * c + j) = nth_error l j.
Proof.
  induction ls as [|l0 ls IH]; intros H i l j E Hj; [destruct i; discriminate|]. cbn [concat]. destruct i as [|i].
  - injection E as ->. cbn [Nat.mul Nat.add]. apply nth_error_app1. rewrite (H l (or_introl eq_refl)). exact Hj.
  - cbn [Nat.mul]. rewrite nth_error_app2 by (rewrite (H l0 (or_introl eq_refl)); lia). rewrite (H l0 (or_introl eq_refl)). replace (c + i * c + j - c)%nat with (i * c + j)%nat by lia. apply IH; [intros x Hx; apply H; right; exact Hx|exact E|exact Hj].
Qed.
Lemma tile_nth g (cells : nat -> nat -> list tblock) i j : (i < g_rows g)%nat -> (j < g_cols g)%nat -> nth_error (tile_texts g cells) (i * g_cols g + j) = Some (cells i j).
Proof.
  intros Hi Hj. unfold tile_texts. rewrite flat_map_concat_map. rewrite (concat_nth (g_cols g)) with (l := map (cells i) (seq 0 (g_cols g))).
  - rewrite nth_error_map, (nth_error_nth' _ 0%nat) by (rewrite seq_length; exact Hj). rewrite seq_nth by exact Hj. reflexivity.
  - intros l Hl. apply in_map_iff in Hl. destruct Hl as (k & <- & _). rewrite map_length, seq_length. reflexivity.
  - rewrite nth_error_map, (nth_error_nth' _ 0%nat) by (rewrite seq_length; exact Hi). rewrite seq_nth by exact Hi. reflexivity.
  - exact Hj.
Qed.
Lemma combine_nth_error {A B} (l : list A) (m : list B) : forall k, nth_error (combine l m) k = match nth_error l k, nth_error m k with Some a, Some b => Some (a, b) | _, _ => None end.
Proof. revert m. induction l as [|a l IH]; intros m k; [destruct k; reflexivity|]. destruct m as [|b m]; [destruct k; cbn; [reflexivity|destruct (nth_error l k); reflexivity]|]. destruct k as [|k]; [reflexivity|]. cbn [combine nth_error]. apply IH. Qed.
Lemma frame_columns g : map snd (tab_rows (frame_table g)) = repeat (g_cols g) (g_rows g).
Proof.
  unfold frame_table. cbn [tab_rows]. rewrite map_map. cbn [snd]. generalize 0%nat. induction (g_rows g) as [|n IH]; intros k; [reflexivity|]. cbn [seq map repeat]. rewrite IH. reflexivity.
Qed.

(* ---------------- spacing ---------------- *)
Lemma space_total order pm container bs : (forall b, In b bs -> ~ SpacingProps.lineless (vblock_of b)) -> (forall b v hs, In b bs -> exists s, space_block order pm b container v hs = Some s) ->
  exists ss, space_layout order pm container bs = Some ss.
Proof.
  intros N S. unfold space_layout, space_all. destruct (parse_spacing container (map vblock_of bs)) as [vs|] eqn:E.
  - cbn [obind]. apply all_some_map. intros (f & v & hs) Hp. apply in_combine_l in Hp. apply in_map_iff in Hp. destruct Hp as (b & <- & Hb). cbn [fst snd]. apply S, Hb.
  - exfalso. apply SpacingProps.C63_defined in E. destruct E as (v & Hv & Lv). apply in_map_iff in Hv. destruct Hv as (b & <- & Hb). exact (N b Hb Lv).
Qed.
(** The blocks of a cell with box b, as they are spaced. *)
Definition cell_laid (order : list nat -> list nat) (pm : params) (b : bcell) (ts : list tblock) (bs : list sblock) : Prop :=
  Forall2 spaced (map para_block ts) bs /\ space_layout order pm (working_box b) (map LText (map para_block ts)) = Some bs.
Section Table.
Variable order : list nat -> list nat.
Variable pm : params.
Hypothesis Ho : forall l, Permutation l (order l).
Variables (d m : Q) (g : grid) (r : nat -> nat -> TableSpec.region) (above below : list tblock) (cells : nat -> nat -> list tblock).
Hypothesis D1 : 7 <= d.
Hypothesis Ok_ : grid_ok d g.
Hypothesis T : tiles g r.
Hypothesis Tx : table_texts m g r above cells below.
Variable rows : list (list (option bcell)).
Hypothesis Rd : rows_as_drawn g rows.
Let cs : list lcell := map (fun p => done (fst p) (snd p)) (combine (concat rows) (tile_texts g cells)).

Lemma para_ok t : paragraph t -> text_block_ok (para_block t).
Proof.
  intros (_ & _ & Ne & _ & H). split; [|exact Ne]. cbn [b_bbox para_block]. apply (hull_facts (b_lines t) Ne). intros l Hl. destruct (H l Hl) as ((P & D & _) & _). split; assumption.
Qed.
Lemma cell_texts_ok i j : (i < g_rows g)%nat -> (j < g_cols g)%nat -> forall u, In u (map para_block (cells i j)) -> text_block_ok u.
Proof.
  intros Hi Hj u Hu. apply in_map_iff in Hu. destruct Hu as (t & <- & Ht). apply para_ok. apply (text_paragraph m g r above below cells Tx). apply (cell_in g above below cells i j); assumption.
Qed.
Lemma row_lengths l : In l rows -> length l = g_cols g.
Proof. destruct Rd as (_ & R). intros H. apply In_nth_error in H. destruct H as (i & E). apply (R i l E). Qed.
Lemma cs_nth i j : (i < g_rows g)%nat -> (j < g_cols g)%nat -> exists o row, nth_error rows i = Some row /\ nth_error row j = Some o /\ nth_error cs (i * g_cols g + j) = Some (done o (cells i j)).
Proof.
  intros Hi Hj. pose proof Rd as (L & R). destruct (nth_error rows i) as [row|] eqn:Ei; [|apply nth_error_None in Ei; lia]. destruct (R i row Ei) as (Lr & _). destruct (nth_error row j) as [o|] eqn:Ej; [|apply nth_error_None in Ej; lia].
  exists o, row. split; [reflexivity|]. split; [exact Ej|]. unfold cs. rewrite nth_error_map, combine_nth_error, (concat_nth (g_cols g) rows row_lengths i row j Ei Hj), Ej, tile_nth by assumption. reflexivity.
Qed.
Lemma cs_in c : In c cs -> exists i j o row, (i < g_rows g)%nat /\ (j < g_cols g)%nat /\ nth_error rows i = Some row /\ nth_error row j = Some o /\ c = done o (cells i j).
Proof.
  intros H. apply In_nth_error in H. destruct H as (k & E). pose proof Rd as (L & _). pose proof Ok_ as (C1 & _).
  assert (Hk : (k < g_rows g * g_cols g)%nat).
  { assert (K : (k < length cs)%nat) by (apply nth_error_Some; congruence). unfold cs in K. rewrite map_length, combine_length in K. assert (Lc : length (concat rows) = (g_rows g * g_cols g)%nat); [|lia].
    rewrite <- L. pose proof row_lengths as RL. clear - RL. induction rows as [|x l IH]; [reflexivity|]. cbn [concat List.length Nat.mul]. rewrite app_length, (RL x (or_introl eq_refl)), IH; [reflexivity|intros y Hy; apply RL; right; exact Hy]. }
  assert (Ek : k = ((k / g_cols g) * g_cols g + k mod g_cols g)%nat) by (rewrite (Nat.div_mod k (g_cols g)) at 1 by lia; lia).
  assert (Hi : (k / g_cols g < g_rows g)%nat) by (apply Nat.div_lt_upper_bound; lia). assert (Hj : (k mod g_cols g < g_cols g)%nat) by (apply Nat.mod_upper_bound; lia).
  destruct (cs_nth _ _ Hi Hj) as (o & row & E1 & E2 & E3). rewrite <- Ek, E in E3. injection E3 as ->. exists (k / g_cols g)%nat, (k mod g_cols g)%nat, o, row. auto.
Qed.
(** The cell in row i, column j has a box, and starts a tile; or none, and starts none. *)
Lemma cell_kind i j row o : (i < g_rows g)%nat -> (j < g_cols g)%nat -> nth_error rows i = Some row -> nth_error row j = Some o ->
  match o with
  | Some b => r i j = (i, j, fst (bc_merged b), snd (bc_merged b)) /\ rect_bool (bc_bbox b) = true
  | None => (TableSpec.reg_top (r i j), TableSpec.reg_left (r i j)) <> (i, j)
  end.
Proof.
  intros Hi Hj E1 E2. destruct Rd as (_ & R). destruct (R i row E1) as (_ & C). destruct (C j o E2) as (k & n & Ex & Co). destruct o as [b|].
  - destruct Co as (Pk & Pn & Bb & Em). pose proof (extent_tile g r T i j k n Hi Hj Ex Pk Pn) as Er. rewrite Em. split; [exact Er|]. rewrite Bb. apply GeomProof.proper_truthy. destruct (tile_box d g r ltac:(lra) Ok_ T i j k n Hi Hj Er) as ((P & _) & _). exact P.
  - intros Eq. destruct (r i j) as [[[i' j'] k'] n'] eqn:Er. cbn [TableSpec.reg_top TableSpec.reg_left] in Eq. injection Eq as -> ->. destruct (tile_extent g r T i j i j k' n' Hi Hj Er) as (Ex' & _ & _ & P1 & P2 & _).
    destruct Ex as (X1 & X2), Ex' as (Y1 & Y2). pose proof (TableProof.run_length_fun _ _ _ _ _ X1 Y1). pose proof (TableProof.run_length_fun _ _ _ _ _ X2 Y2). lia.
Qed.

Lemma done_spaced i j o row : (i < g_rows g)%nat -> (j < g_cols g)%nat -> nth_error rows i = Some row -> nth_error row j = Some o ->
  match o with
  | Some b => exists v bs, space_cell order pm (done o (cells i j)) = Some (Some b, v, bs) /\ cell_laid order pm b (cells i j) bs
  | None => space_cell order pm (done o (cells i j)) = Some (None, false, [])
  end.
Proof.
  intros Hi Hj E1 E2. pose proof (cell_kind i j row o Hi Hj E1 E2) as K. destruct o as [b|]; [|reflexivity]. destruct K as (_ & K).
  destruct (space_texts order pm (working_box b) (map para_block (cells i j)) Ho (cell_texts_ok i j Hi Hj)) as (out & Es & F). pose proof Es as Es'. rewrite map_map in Es.
  unfold space_cell, done. cbn [lc_info lc_blocks fst snd]. rewrite K, Es. eexists. exists out. split; [reflexivity|split; [exact F|exact Es']].
Qed.
Lemma cells_spaced : exists sc, all_some (map (space_cell order pm) cs) = Some sc.
Proof.
  apply all_some_map. intros c Hc. destruct (cs_in c Hc) as (i & j & o & row & Hi & Hj & E1 & E2 & ->). pose proof (done_spaced i j o row Hi Hj E1 E2) as K. destruct o as [b|]; [destruct K as (v & bs & K & _)|]; eexists; exact K.
Qed.
Lemma table_spaced container v hs : exists s, space_block order pm (LTable (frame_table g) cs) container v hs = Some s.
Proof.
  destruct cells_spaced as (sc & E). exists (STable (mkTP (v_before v) (rx0 (frame_table g) - rx0 container) (tab_lattice (frame_table g))) (combine hs (cut (map snd (tab_rows (frame_table g))) sc))). cbn [space_block].
  match goal with |- option_map _ ?x = _ => replace x with (Some sc) by (symmetry; exact E) end. reflexivity.
Qed.
Lemma table_srows container v hs s : length hs = g_rows g -> space_block order pm (LTable (frame_table g) cs) container v hs = Some s ->
  exists srows, s = STable (mkTP (v_before v) (rx0 (frame_table g) - rx0 container) (tab_lattice (frame_table g))) srows /\ map fst srows = hs /\ divides (g_rows g) (g_cols g) r srows /\
    forall i h scs, nth_error srows i = Some (h, scs) -> (i < g_rows g)%nat /\ length scs = g_cols g /\ forall j, (j < g_cols g)%nat -> exists o row, nth_error rows i = Some row /\ nth_error row j = Some o /\
      match o with
      | Some b => exists v bs, nth_error scs j = Some (Some b, v, bs) /\ cell_laid order pm b (cells i j) bs
      | None => nth_error scs j = Some (None, false, [])
      end.
Proof.
  intros Lh E. apply space_table in E. destruct E as (sc & E & ->). rewrite frame_columns. exists (combine hs (cut (repeat (g_cols g) (g_rows g)) sc)). split; [reflexivity|].
  apply all_some_nth in E. destruct E as (Lsc & E).
  assert (Lc : length (cut (repeat (g_cols g) (g_rows g)) sc) = g_rows g) by (generalize (g_rows g) sc; clear; intros n; induction n as [|n IH]; intros l; [reflexivity|cbn [repeat cut List.length]; rewrite IH; reflexivity]).
  assert (Main : forall i h scs, nth_error (combine hs (cut (repeat (g_cols g) (g_rows g)) sc)) i = Some (h, scs) -> (i < g_rows g)%nat /\ length scs = g_cols g /\ forall j, (j < g_cols g)%nat -> exists o row, nth_error rows i = Some row /\ nth_error row j = Some o /\
      match o with
      | Some b => exists v bs, nth_error scs j = Some (Some b, v, bs) /\ cell_laid order pm b (cells i j) bs
      | None => nth_error scs j = Some (None, false, [])
      end).
  { intros i h scs Ei. rewrite combine_nth_error in Ei. destruct (nth_error hs i) as [h'|] eqn:E1; [|discriminate Ei]. assert (Hi : (i < g_rows g)%nat) by (rewrite <- Lh; apply nth_error_Some; congruence). rewrite cut_nth in Ei by exact Hi. injection Ei as <- <-. split; [exact Hi|].
    assert (At : forall j, (j < g_cols g)%nat -> exists o row, nth_error rows i = Some row /\ nth_error row j = Some o /\
      match o with
      | Some b => exists v bs, nth_error (firstn (g_cols g) (skipn (i * g_cols g) sc)) j = Some (Some b, v, bs) /\ cell_laid order pm b (cells i j) bs
      | None => nth_error (firstn (g_cols g) (skipn (i * g_cols g) sc)) j = Some (None, false, [])
      end).
    { intros j Hj. destruct (cs_nth i j Hi Hj) as (o & row & R1 & R2 & R3). exists o, row. split; [exact R1|]. split; [exact R2|]. rewrite nth_firstn by exact Hj.
      assert (Kl : (i * g_cols g + j < length sc)%nat) by (rewrite Lsc, map_length; apply nth_error_Some; congruence).
      destruct (nth_error sc (i * g_cols g + j)) as [x|] eqn:Ex; [|apply nth_error_None in Ex; lia]. apply E in Ex. rewrite nth_error_map, R3 in Ex. cbn [option_map] in Ex. injection Ex as Ex.
      pose proof (done_spaced i j o row Hi Hj R1 R2) as K. destruct o as [b|]; [destruct K as (v' & bs & K & F); exists v', bs|]; rewrite K in Ex; injection Ex as <-; [split; [reflexivity|exact F]|reflexivity]. }
    split; [|exact At]. apply Nat.le_antisymm; [rewrite firstn_length; lia|]. pose proof Ok_ as (C1 & _). destruct (At (g_cols g - 1)%nat ltac:(lia)) as (o & row & _ & _ & K).
    assert (X : nth_error (firstn (g_cols g) (skipn (i * g_cols g) sc)) (g_cols g - 1) <> None) by (destruct o as [b|]; [destruct K as (v' & bs & K & _)|]; rewrite K; discriminate). apply nth_error_Some in X. lia. }
  split; [|split; [|exact Main]].
  - rewrite <- Lc in Lh. clear - Lh. revert Lh. generalize (cut (repeat (g_cols g) (g_rows g)) sc). intros l. revert hs. induction l as [|x l IH]; intros [|h hs] Lh; try reflexivity; try discriminate. cbn [combine map fst]. rewrite IH; [reflexivity|injection Lh as Lh; exact Lh].
  - split; [rewrite combine_length, Lh, Lc; apply Nat.min_id|]. intros i h scs Ei. destruct (Main i h scs Ei) as (Hi & Ls & At). split; [exact Ls|]. intros j info v' bs Ej.
    assert (Hj : (j < g_cols g)%nat) by (rewrite <- Ls; apply nth_error_Some; congruence). destruct (At j Hj) as (o & row & R1 & R2 & K). pose proof (cell_kind i j row o Hi Hj R1 R2) as Ck. destruct o as [b|].
    + destruct K as (v2 & bs2 & K & _). match type of Ej with ?x = _ => match type of K with ?y = _ => change x with y in Ej end end. rewrite K in Ej. injection Ej as <- <- <-. apply Ck.
    + match type of Ej with ?x = _ => match type of K with ?y = _ => change x with y in Ej end end. rewrite K in Ej. injection Ej as <- <- <-. split; [exact Ck|split; reflexivity].
Qed.
(** A table of a page, as it is spaced, is regular. *)
Lemma frame_heights h : In h (map fst (tab_rows (frame_table g))) -> 1 <= h.
Proof.
  unfold frame_table. cbn [tab_rows]. rewrite map_map. intros H. apply in_map_iff in H. destruct H as (i & <- & Hi). apply in_seq in Hi. cbn [fst]. pose proof Ok_ as (_ & _ & _ & _ & Gy & _).
  specialize (Gy i ltac:(lia)). pose proof (round1_bound (gy g (S i))). pose proof (round1_bound (gy g i)). lra.
Qed.
Lemma srows_regular before srows : divides (g_rows g) (g_cols g) r srows -> (forall h, In h (map fst srows) -> 0 <= h) ->
  (forall i h scs, nth_error srows i = Some (h, scs) -> (i < g_rows g)%nat /\ length scs = g_cols g /\ forall j, (j < g_cols g)%nat -> exists o row, nth_error rows i = Some row /\ nth_error row j = Some o /\
      match o with
      | Some b => exists v bs, nth_error scs j = Some (Some b, v, bs) /\ cell_laid order pm b (cells i j) bs
      | None => nth_error scs j = Some (None, false, [])
      end) -> regular (STable before srows).
Proof.
  intros Dv Hh Main. pose proof Ok_ as (_ & C2 & _). apply (regular_table before srows (g_rows g) (g_cols g) r); [lia|apply T|exact Dv|intros h c Hc; apply Hh; apply (in_map fst) in Hc; exact Hc|].
  intros h scs info v bs b H1 H2 H3. apply In_nth_error in H1. destruct H1 as (i & Ei). apply In_nth_error in H2. destruct H2 as (j & Ej). destruct (Main i h scs Ei) as (_ & Ls & At).
  assert (Hj : (j < g_cols g)%nat) by (rewrite <- Ls; apply nth_error_Some; intros X; pose proof (eq_trans (eq_sym X) Ej) as Y; discriminate Y). destruct (At j Hj) as (o & row & _ & _ & K). destruct o as [x|].
  - destruct K as (v2 & bs2 & K & F & _). match type of Ej with ?x = _ => match type of K with ?y = _ => change x with y in Ej end end. rewrite K in Ej. injection Ej as <- <- <-.
    clear - F H3. induction F as [|u s us ss (t & -> & _) _ IH]; [destruct H3|]. destruct H3 as [<-|H3]; [constructor|apply IH, H3].
  - match type of Ej with ?x = _ => match type of K with ?y = _ => change x with y in Ej end end. rewrite K in Ej. injection Ej as <- <- <-. destruct H3.
Qed.
End Table.
