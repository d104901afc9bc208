From Verif Require Import FlowSpec FlowProof GraphProof TextProof GeomProof AssignProof CleanProof BorderProof2.
From Verif Require Import GraphSpec GeomSpec.
From Coq Require Import List Lia Permutation Relations Sorting.Sorted.
Import ListNotations.
Open Scope Q_scope.

Lemma covers_trans' a b c : Rect.covers a b -> Rect.covers b c -> Rect.covers a c.
Proof. unfold Rect.covers. intros (? & ? & ? & ?) (? & ? & ? & ?). repeat split; lra. Qed.
Lemma union_hull a b : box a -> box b -> box (union_bbox a b) /\ Rect.covers (union_bbox a b) a /\ Rect.covers (union_bbox a b) b /\
  forall c, Rect.covers c a -> Rect.covers c b -> Rect.covers c (union_bbox a b).
Proof.
  intros (Pa & Da) (Pb & Db). destruct (runion_covers a b Pa Pb) as (C1 & C2 & P & C3). pose proof (rround_fixed _ (runion_decimal a b Da Db)) as F.
  destruct F as (F1 & F2 & F3 & F4). unfold union_bbox. split; [|split; [|split]].
  - split; [|apply rround_decimal]. destruct P. split; lra.
  - destruct C1 as (? & ? & ? & ?). unfold Rect.covers. repeat split; lra.
  - destruct C2 as (? & ? & ? & ?). unfold Rect.covers. repeat split; lra.
  - intros c Ha Hb. destruct (C3 c Ha Hb) as (? & ? & ? & ?). unfold Rect.covers. repeat split; lra.
Qed.
Lemma union_first b : box b -> box (union_bbox rect0 b) /\ req (union_bbox rect0 b) b.
Proof.
  intros (P & D). unfold union_bbox, runion. rewrite (proper_nonempty b P). change (rect_empty rect0) with true. cbv iota.
  pose proof (rround_fixed b D) as F. split; [split; [apply (proper_req b); [apply req_sym; exact F|exact P]|apply rround_decimal]|exact F].
Qed.
Lemma lines_hull (ls : list line) : ls <> [] -> (forall l, In l ls -> box (ln_bbox l)) ->
  let u := fold_left (fun r l => union_bbox r (ln_bbox l)) ls rect0 in
  box u /\ (forall l, In l ls -> Rect.covers u (ln_bbox l)) /\ (forall c, (forall l, In l ls -> Rect.covers c (ln_bbox l)) -> Rect.covers c u).
Proof.
  intros N B. cbv zeta.
  assert (G : forall ls r, box r -> (forall l, In l ls -> box (ln_bbox l)) -> let u := fold_left (fun r l => union_bbox r (ln_bbox l)) ls r in
    box u /\ Rect.covers u r /\ (forall l, In l ls -> Rect.covers u (ln_bbox l)) /\ (forall c, Rect.covers c r -> (forall l, In l ls -> Rect.covers c (ln_bbox l)) -> Rect.covers c u)).
  { clear. induction ls as [|l t IH]; intros r Br B; cbv zeta; cbn [fold_left].
    - split; [exact Br|]. split; [apply covers_refl|]. split; [intros l []|auto].
    - destruct (union_hull r (ln_bbox l) Br (B l (or_introl eq_refl))) as (U1 & U2 & U3 & U4).
      destruct (IH (union_bbox r (ln_bbox l)) U1 (fun x Hx => B x (or_intror Hx))) as (I1 & I2 & I3 & I4). cbv zeta in *.
      split; [exact I1|]. split; [exact (covers_trans' _ _ _ I2 U2)|]. split; [intros x [<-|Hx]; [exact (covers_trans' _ _ _ I2 U3)|apply I3; exact Hx]|].
      intros c Hc Hl. apply I4; [apply U4; [exact Hc|apply Hl; left; reflexivity]|intros x Hx; apply Hl; right; exact Hx]. }
  destruct ls as [|l t]; [congruence|]. cbn [fold_left]. destruct (union_first (ln_bbox l) (B l (or_introl eq_refl))) as (U1 & (E1 & E2 & E3 & E4)).
  destruct (G t (union_bbox rect0 (ln_bbox l)) U1 (fun x Hx => B x (or_intror Hx))) as (I1 & I2 & I3 & I4). cbv zeta in *.
  split; [exact I1|]. split.
  - intros x [<-|Hx]; [|apply I3; exact Hx]. apply (covers_trans' _ _ _ I2). unfold Rect.covers. repeat split; lra.
  - intros c Hc. apply I4; [|intros x Hx; apply Hc; right; exact Hx]. pose proof (Hc l (or_introl eq_refl)) as (? & ? & ? & ?). unfold Rect.covers. repeat split; lra.
Qed.

Lemma set_pid_anon id l : anon (set_pid id l) = anon l.
Proof. unfold set_pid. destruct (ln_pid l); reflexivity. Qed.
Lemma set_pid_box id l : ln_bbox (set_pid id l) = ln_bbox l.
Proof. unfold set_pid. destruct (ln_pid l); reflexivity. Qed.
Lemma set_pid_known id p l : from_source p l -> set_pid id l = l.
Proof. unfold from_source, set_pid. intros ->. reflexivity. Qed.
Lemma box_bool l : box (ln_bbox l) -> ln_bool l = true.
Proof. intros (P & _). apply proper_truthy. exact P. Qed.
Lemma filter_boxes (ls : list line) : (forall l, In l ls -> box (ln_bbox l)) -> filter ln_bool ls = ls.
Proof. intros B. apply filter_all. intros l Hl. apply box_bool, B, Hl. Qed.

Lemma source_in ids gs : forall k b, In b (source_blocks ids k gs) <-> exists j g, nth_error gs j = Some g /\ b = source_block (ids (k + j)%nat) g.
Proof.
  induction gs as [|g t IH]; intros k b; cbn [source_blocks].
  - split; [intros []|intros (j & g & H & _); destruct j; discriminate].
  - split.
    + intros [<-|H]; [exists 0%nat, g; rewrite Nat.add_0_r; split; reflexivity|]. apply IH in H. destruct H as (j & g' & H & ->). exists (S j), g'. split; [exact H|]. f_equal. f_equal. lia.
    + intros (j & g' & H & ->). destruct j as [|j]; cbn in H; [injection H as <-; left; rewrite Nat.add_0_r; reflexivity|]. right. apply IH. exists j, g'. split; [exact H|]. f_equal. f_equal. lia.
Qed.
Lemma source_lines ids gs : forall k, flat_map (fun b => map anon (f_lines b)) (source_blocks ids k gs) = map anon (filter ln_bool (concat gs)).
Proof.
  induction gs as [|g t IH]; intros k; cbn [source_blocks flat_map concat]; [reflexivity|]. rewrite IH, filter_app, map_app. f_equal.
  unfold source_block. cbn [f_lines b_lines]. rewrite map_map. apply map_ext. intros l. apply set_pid_anon.
Qed.

Lemma source_chain L i j : chained same_source L i j -> i = j \/ exists a b p, nth_error L i = Some a /\ nth_error L j = Some b /\ from_source p a /\ from_source p b.
Proof.
  intros C. induction C as [i j H|i|i j k _ IH1 _ IH2].
  - right. destruct H as [(_ & a & b & Ha & Hb & E)|(_ & a & b & Ha & Hb & E)]; apply same_source_iff in E; destruct E as (p & E1 & E2); [exists a, b, p|exists b, a, p]; auto.
  - left. reflexivity.
  - destruct IH1 as [->|(a & b & p & Ha & Hb & P1 & P2)]; [exact IH2|]. destruct IH2 as [<-|(b' & c & q & Hb' & Hc & Q1 & Q2)]; [right; exists a, b, p; auto|].
    right. exists a, c, p. rewrite Hb in Hb'. injection Hb' as <-. unfold from_source in *. rewrite P2 in Q1. injection Q1 as ->. auto.
Qed.

Lemma flat_map_ext_in' {A B} (f g : A -> list B) l : (forall x, In x l -> f x = g x) -> flat_map f l = flat_map g l.
Proof. induction l as [|x t IH]; intros H; [reflexivity|]. cbn [flat_map]. rewrite (H x (or_introl eq_refl)), IH by (intros y Hy; apply H; right; exact Hy). reflexivity. Qed.
Section O.
Context (order : list nat -> list nat) (Ho : forall l, Permutation l (order l)).

(** Groups of one source. *)
Lemma source_groups L : exists gs, group same_source order L = Some gs /\ Permutation (concat gs) L /\ (forall g, In g gs -> g <> []) /\
  (forall g id, In g gs -> exists p, forall l, In l g -> from_source p (set_pid id l)) /\
  (forall a b p, In a L -> In b L -> from_source p a -> from_source p b -> exists g, In g gs /\ In a g /\ In b g).
Proof.
  destruct (group_chain order Ho same_source L) as (gs & E & P & Ne & C1 & C2 & C3). exists gs. split; [exact E|]. split; [exact P|]. split; [exact Ne|]. split.
  - intros g id Hg. destruct (C3 g Hg) as (js & Nd & Eg & Rg & Ch). specialize (Ne g Hg).
    assert (It : forall k, In k js -> exists x, nth_error L k = Some x) by (intros k Hk; specialize (Rg k Hk); destruct (nth_error L k) as [x|] eqn:E0; [exists x; reflexivity|apply nth_error_None in E0; lia]).
    assert (Mem : forall l, In l g -> exists k, In k js /\ nth_error L k = Some l).
    { intros l Hl. rewrite Eg in Hl. apply in_flat_map in Hl. destruct Hl as (k & Hk & Hl). unfold item_at in Hl. destruct (nth_error L k) as [x|] eqn:E0; [|destruct Hl]. destruct Hl as [<-|[]]. exists k. auto. }
    destruct js as [|i0 [|i1 js]]; [exfalso; apply Ne; exact Eg| |].
    + destruct (It i0 (or_introl eq_refl)) as (l0 & E0). exists (match ln_pid l0 with Some p => p | None => id end). intros l Hl. destruct (Mem l Hl) as (k & [<-|[]] & Hk).
      rewrite E0 in Hk. injection Hk as <-. unfold from_source, set_pid. destruct (ln_pid l0) as [p|] eqn:Ep; [exact Ep|reflexivity].
    + destruct (source_chain L i0 i1 (Ch i0 i1 (or_introl eq_refl) (or_intror (or_introl eq_refl)))) as [Ei|(l0 & l1 & p & E0 & E1 & P0 & P1)].
      { exfalso. subst i1. inversion Nd as [|? ? N _]; subst. apply N. left. reflexivity. }
      exists p. intros l Hl. destruct (Mem l Hl) as (k & Hk & Ek). assert (Pl : from_source p l).
      { destruct (source_chain L i0 k (Ch i0 k (or_introl eq_refl) Hk)) as [<-|(a & b & q & Ea & Eb & Qa & Qb)].
        - rewrite E0 in Ek. injection Ek as <-. exact P0.
        - rewrite E0 in Ea. injection Ea as <-. rewrite Ek in Eb. injection Eb as <-. unfold from_source in *. rewrite P0 in Qa. injection Qa as ->. exact Qb. }
      rewrite (set_pid_known id p l Pl). exact Pl.
  - intros a b p Ha Hb Pa Pb. apply In_nth_error in Ha, Hb. destruct Ha as (i & Ha). destruct Hb as (j & Hb). apply (C1 i j a b Ha Hb).
    destruct (Nat.lt_trichotomy i j) as [Lt|[->|Lt]]; [|apply rt_refl|].
    + apply rt_step. left. split; [exact Lt|]. exists a, b. split; [exact Ha|]. split; [exact Hb|]. apply same_source_iff. exists p. auto.
    + apply rt_step. right. split; [exact Lt|]. exists b, a. split; [exact Hb|]. split; [exact Ha|]. apply same_source_iff. exists p. auto.
Qed.

(** The result of the splitting on a page. *)
Lemma split_shape ids tol sep bs : flow_page bs ->
  let keep := filter (fun b => negb (flows_b order tol sep b)) bs in
  let L := flat_map f_lines (filter (flows_b order tol sep) bs) in
  exists gs, group same_source order L = Some gs /\
    let out := sort_fblocks (keep ++ source_blocks ids 0 (map lines_sort gs)) in
    split_back order ids tol sep bs = Some out /\
    (forall b, In b (source_blocks ids 0 (map lines_sort gs)) -> f_bool b = true).
Proof.
  intros (PB & LB). cbv zeta. set (keep := filter (fun b => negb (flows_b order tol sep b)) bs). set (L := flat_map f_lines (filter (flows_b order tol sep) bs)).
  destruct (source_groups L) as (gs & E & P & Ne & S1 & S2). exists gs. split; [exact E|].
  assert (EL : flat_map (fun b => filter ln_bool (f_lines b)) (filter (flows_b order tol sep) bs) = L).
  { unfold L. apply flat_map_ext_in'. intros b Hb. apply filter_In in Hb. apply filter_boxes. intros l Hl. exact (LB b l (proj1 Hb) Hl). }
  assert (BL : forall l, In l L -> box (ln_bbox l)). { intros l Hl. apply in_flat_map in Hl. destruct Hl as (b & Hb & Hl). apply filter_In in Hb. exact (LB b l (proj1 Hb) Hl). }
  assert (Fs : forall b, In b (source_blocks ids 0 (map lines_sort gs)) -> f_bool b = true).
  { intros b Hb. apply source_in in Hb. destruct Hb as (j & g & Hj & ->). rewrite nth_error_map in Hj. destruct (nth_error gs j) as [g0|] eqn:Eg; [|discriminate]. injection Hj as <-.
    apply nth_error_In in Eg. assert (Bg : forall l, In l (lines_sort g0) -> box (ln_bbox l)).
    { intros l Hl. apply BL. apply (Permutation_in _ P). apply in_concat. exists g0. split; [exact Eg|]. apply (Permutation_in _ (Permutation_sym (lines_sort_perm g0))). exact Hl. }
    unfold source_block, f_bool. cbn [f_box b_bbox]. rewrite (filter_boxes _ Bg). apply proper_truthy.
    assert (H : box (fold_left (fun r l => union_bbox r (ln_bbox l)) (map (set_pid (ids (0 + j)%nat)) (lines_sort g0)) rect0)).
    { apply lines_hull; [|intros l Hl; apply in_map_iff in Hl; destruct Hl as (x & <- & Hx); rewrite set_pid_box; apply Bg; exact Hx].
      intros N. apply map_eq_nil in N. apply (Ne g0 Eg). apply Permutation_nil. rewrite <- N. apply Permutation_sym, lines_sort_perm. }
    apply H. }
  split; [|exact Fs]. unfold split_back. rewrite part_spec by exact Ho. rewrite EL. unfold lines_split_back. rewrite E. cbn [option_map]. f_equal. f_equal.
  apply filter_all. intros b Hb. apply in_app_or in Hb. destruct Hb as [Hb|Hb]; [|apply Fs; exact Hb].
  apply filter_In in Hb. apply proper_truthy. apply PB. apply Hb.
Qed.
Lemma sort_fblocks_perm l : Permutation l (sort_fblocks l).
Proof. apply py_sort_perm. Qed.
Lemma sort_fblocks_sorted l : StronglySorted (fun a b => reading_before (is_horizontal (coll_dir (map f_elem l))) (f_elem a) (f_elem b)) (sort_fblocks l).
Proof.
  unfold sort_fblocks, sort_key. set (h := is_horizontal _).
  pose proof (py_sort_sorted (fun a b => lex_le (reading_key h (f_elem a)) (reading_key h (f_elem b))) (fun x y => lex_le_total _ _) (fun x y z => lex_le_trans _ _ _) l) as S.
  induction S as [|a t _ IH F]; constructor; [exact IH|]. rewrite Forall_forall in *. intros x Hx. apply reading_key_before. apply F. exact Hx.
Qed.
End O.
