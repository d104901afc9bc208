(** Each cell of the drawn table receives the lines of its paragraphs. *)
From Verif Require GeomProof TableProps TableSpec TableProof FmtProof5.
From Verif Require Import AssignSpec AssignProof InterProof GraphProof TextProof PySort FlowModel FlowSpec FlowProof FlowProof2 FlowProps LayoutSpec LayoutProof.
From Verif Require Import CleanSpec CleanProof CleanProof2 CleanProof3 CleanProps.
From Verif Require Import TabSpec GridProof5 GridProof6 GridProof7.
From Verif Require Import CleanModel CleanSpec FlowModel FlowSpec LayoutModel WholeModel WholeSpec WholeProof WholeProof2 WholeProof3 WholeProof4 WholeProof5 TabProof TabProof2 TabProof3 TabProof4.
From Verif Require Import GridSpec.
From Verif Require Import CleanModel.
From Coq Require Import Lia Lqa Permutation Sorting.Sorted.
Notation length := List.length.
Notation pairwise := BorderProof3.pairwise.
Open Scope Q_scope.

Lemma Forall2_nth {A B} (R : A -> B -> Prop) l m : length l = length m -> (forall i x y, nth_error l i = Some x -> nth_error m i = Some y -> R x y) -> Forall2 R l m.
Proof.
  revert m. induction l as [|x l IH]; intros [|y m] L H; try discriminate; constructor; [apply (H 0%nat); reflexivity|]. apply IH; [injection L as L; exact L|]. intros i a b Ha Hb. apply (H (S i)); assumption.
Qed.
Lemma Forall2_concat {A B} (R : A -> B -> Prop) l m : Forall2 (Forall2 R) l m -> Forall2 R (concat l) (concat m).
Proof. induction 1 as [|x y l m H F IH]; [constructor|]. cbn [concat]. apply FmtProof5.Forall2_app_; assumption. Qed.
Lemma one_of_seq {A} (f : nat -> list A) i n : forall k, (k <= i < k + n)%nat -> (forall x, (k <= x < k + n)%nat -> x <> i -> f x = []) -> flat_map f (seq k n) = f i.
Proof.
  induction n as [|n IH]; intros k Hk H; [lia|]. cbn [seq flat_map]. destruct (Nat.eq_dec k i) as [->|Ne].
  - assert (E : flat_map f (seq (S i) n) = []); [|rewrite E; apply app_nil_r]. assert (G : forall x, In x (seq (S i) n) -> f x = []) by (intros x Hx; apply in_seq in Hx; apply H; lia).
    clear - G. induction (seq (S i) n) as [|a l IHl]; [reflexivity|]. cbn [flat_map]. rewrite (G a (or_introl eq_refl)), IHl; [reflexivity|]. intros x Hx. apply G. right. exact Hx.
  - rewrite (H k ltac:(lia) Ne). cbn [app]. apply IH; [lia|]. intros x Hx. apply H. lia.
Qed.
Lemma fop_sub {A} (R : A -> A -> Prop) a b c : ForallOrdPairs R (a ++ b ++ c) -> ForallOrdPairs R b.
Proof.
  intros H. induction a as [|x a IH]; [|inversion H; subst; apply IH; assumption]. cbn [app] in H. induction b as [|x b IH]; [constructor|]. cbn [app] in H. inversion H as [|? ? F H']; subst. constructor; [apply Forall_app in F; apply F|apply IH, H'].
Qed.
(** The paragraphs of one cell among all. *)
Lemma in_grid_parts g cells i j : (i < g_rows g)%nat -> (j < g_cols g)%nat -> exists a b, in_grid g cells = a ++ cells i j ++ b.
Proof.
  intros Hi Hj. unfold in_grid. assert (P : forall A (f : nat -> list A) k n, (k < n)%nat -> exists a b, flat_map f (seq 0 n) = a ++ f k ++ b).
  { intros A f k n H. replace n with (k + S (n - k - 1))%nat by lia. rewrite seq_app, flat_map_app. cbn [seq flat_map Nat.add]. eexists. eexists. reflexivity. }
  destruct (P _ (fun i => flat_map (cells i) (seq 0 (g_cols g))) i (g_rows g) Hi) as (a & b & E). rewrite E. cbv beta. destruct (P _ (cells i) j (g_cols g) Hj) as (a' & b' & E'). rewrite E'. exists (a ++ a'), (b' ++ b). rewrite <- !app_assoc. reflexivity.
Qed.
Lemma in_grid_In g cells t : In t (in_grid g cells) <-> exists i j, (i < g_rows g)%nat /\ (j < g_cols g)%nat /\ In t (cells i j).
Proof.
  unfold in_grid. rewrite in_flat_map. split.
  - intros (i & Hi & H). apply in_flat_map in H. destruct H as (j & Hj & H). apply in_seq in Hi. apply in_seq in Hj. exists i, j. repeat split; [lia|lia|exact H].
  - intros (i & j & Hi & Hj & H). exists i. split; [apply in_seq; lia|]. apply in_flat_map. exists j. split; [apply in_seq; lia|exact H].
Qed.

Section Ready.
Variables (d m : Q) (g : grid) (r : nat -> nat -> TableSpec.region).
Variables (above below : list tblock) (cells : nat -> nat -> list tblock).
Hypothesis Hd : 1 <= d.
Hypothesis M : 0 <= m.
Hypothesis Ok : grid_ok d g.
Hypothesis T : tiles g r.
Hypothesis Tx : table_texts m g r above cells below.
Definition all_texts : list tblock := above ++ in_grid g cells ++ below.

Lemma tile_box i j k n : (i < g_rows g)%nat -> (j < g_cols g)%nat -> r i j = (i, j, k, n) -> box (place g i j k n) /\ Rect.covers (frame_box g) (place g i j k n).
Proof.
  intros Hi Hj E. destruct (tile_extent g r T i j i j k n Hi Hj E) as (_ & _ & _ & Pk & Pn & _).
  assert (L : (i + k <= g_rows g)%nat /\ (j + n <= g_cols g)%nat).
  { pose proof T as (P & _). destruct (P i j Hi Hj) as (_ & C). rewrite E in C. destruct (C (i + k - 1)%nat (j + n - 1)%nat) as (A & B & _); [cbn [TableSpec.in_region]; lia|]. lia. }
  exact (place_box d g Hd Ok i j k n Pk Pn (proj1 L) (proj2 L)).
Qed.
Lemma frame_proper : box (frame_box g).
Proof. pose proof Ok as (C1 & C2 & _). destruct (place_box d g Hd Ok 0 0 (g_rows g) (g_cols g)) as (P & _); try lia. exact P. Qed.
Lemma text_paragraph t : In t all_texts -> paragraph t.
Proof. destruct Tx as (P & _). rewrite Forall_forall in P. exact (P t). Qed.
Lemma cell_in i j t : (i < g_rows g)%nat -> (j < g_cols g)%nat -> In t (cells i j) -> In t all_texts.
Proof. intros Hi Hj H. unfold all_texts. apply in_or_app. right. apply in_or_app. left. apply in_grid_In. exists i, j. auto. Qed.
Lemma line_place t l : In t all_texts -> In l (b_lines t) -> normal_line l /\ ln_dir l = LEFT_RIGHT /\ Rect.covers (b_bbox t) (ln_bbox l) /\ forall s, In s (ln_spans l) -> Rect.covers (ln_bbox l) (span_bbox s).
Proof. intros Ht Hl. destruct (text_paragraph t Ht) as (_ & (_ & _ & N) & _ & _ & H). destruct (H l Hl) as (A & B). destruct (N l Hl) as (C & D). auto. Qed.
Lemma cell_line i j t l : (i < g_rows g)%nat -> (j < g_cols g)%nat -> In t (cells i j) -> In l (b_lines t) ->
  exists k n, r i j = (i, j, k, n) /\ Rect.covers (place g i j k n) (ln_bbox l) /\ well_inside m (place g i j k n) (b_bbox t) /\ forall s, In s (ln_spans l) -> proper (span_bbox s) /\ Rect.covers (ln_bbox l) (span_bbox s).
Proof.
  intros Hi Hj Ht Hl. destruct Tx as (_ & _ & _ & _ & _ & _ & _ & C). destruct (C i j t Hi Hj Ht) as ((k & n & E & W) & S). exists k, n. split; [exact E|].
  destruct (line_place t l (cell_in i j t Hi Hj Ht) Hl) as (_ & _ & Cv & Sp). split; [exact (GeomProof.covers_trans _ _ _ (proj1 W) Cv)|]. split; [exact W|]. intros s Hs. split; [exact (S l s Hl Hs)|exact (Sp s Hs)].
Qed.
Lemma line_cases l : In l (lines_in all_texts) -> normal_line l /\ ((ry1 (ln_bbox l) < ry0 (frame_box g) \/ ry1 (frame_box g) < ry0 (ln_bbox l)) \/
  exists i j t, (i < g_rows g)%nat /\ (j < g_cols g)%nat /\ In t (cells i j) /\ In l (b_lines t)).
Proof.
  intros Hl. apply in_flat_map in Hl. destruct Hl as (t & Ht & Hl). destruct (line_place t l Ht Hl) as (N & _ & (_ & C2 & _ & C4) & _). split; [exact N|].
  pose proof Tx as (_ & _ & _ & _ & _ & A & B & _). unfold all_texts in Ht. apply in_app_or in Ht. destruct Ht as [Ht|Ht]; [left; left; specialize (A t Ht); lra|]. apply in_app_or in Ht. destruct Ht as [Ht|Ht]; [|left; right; specialize (B t Ht); lra].
  right. apply in_grid_In in Ht. destruct Ht as (i & j & Hi & Hj & Ht). exists i, j, t. auto.
Qed.
(** A line inside the frame is in the cell, or beside it. *)
Lemma line_sorted i j k n l : (i < g_rows g)%nat -> (j < g_cols g)%nat -> r i j = (i, j, k, n) -> In l (lines_in all_texts) -> Rect.covers (frame_box g) (ln_bbox l) -> sorted_out (place g i j k n) l.
Proof.
  intros Hi Hj E Hl C. destruct (line_cases l Hl) as (N & [K|(i' & j' & t & Hi' & Hj' & Ht & Hl')]).
  - exfalso. destruct N as ((_ & P) & _). destruct C as (_ & C2 & _ & C4). lra.
  - split; [exact N|]. destruct (cell_line i' j' t l Hi' Hj' Ht Hl') as (k' & n' & E' & Cv & _ & S).
    assert (Other : (i <> i' \/ j <> j') -> Rect.covers (place g i j k n) (ln_bbox l) \/ apart (place g i j k n) (ln_bbox l) /\ forall s, In s (ln_spans l) -> proper (span_bbox s) /\ Rect.covers (ln_bbox l) (span_bbox s)).
    { intros Ne. right. split; [|exact S]. apply (apart_sub _ (place g i' j' k' n')); [|exact Cv]. exact (places_apart d g r Hd Ok T i j k n i' j' k' n' Hi Hj Hi' Hj' E E' Ne). }
    destruct (Nat.eq_dec i i') as [Ei|Ne]; [|apply Other; left; exact Ne]. destruct (Nat.eq_dec j j') as [Ej|Ne]; [|apply Other; right; exact Ne]. subst i' j'. rewrite E in E'. injection E' as <- <-. left. exact Cv.
Qed.
Lemma filter_cell i j k n : (i < g_rows g)%nat -> (j < g_cols g)%nat -> r i j = (i, j, k, n) -> filter (held (place g i j k n)) (lines_in all_texts) = lines_in (cells i j).
Proof.
  intros Hi Hj E. destruct (tile_box i j k n Hi Hj E) as ((Pc & _) & (_ & F2 & _ & F4)). pose proof Tx as (_ & _ & _ & _ & _ & A & B & _).
  unfold all_texts. rewrite !lines_in_app, !filter_app.
  assert (Out : forall ts, (forall t, In t ts -> In t all_texts /\ (ry1 (b_bbox t) < ry0 (frame_box g) \/ ry1 (frame_box g) < ry0 (b_bbox t))) -> filter (held (place g i j k n)) (lines_in ts) = []).
  { intros ts H. apply filter_none. intros l Hl. apply in_flat_map in Hl. destruct Hl as (t & Ht & Hl). destruct (H t Ht) as (It & K). destruct (line_place t l It Hl) as (((_ & P) & _) & _ & (_ & C2 & _ & C4) & _).
    unfold held. destruct (coversb (place g i j k n) (ln_bbox l)) eqn:Eb; [|reflexivity]. exfalso. apply coversb_iff in Eb. destruct Eb as (_ & E2 & _ & E4). lra. }
  rewrite (Out above), (Out below); [|intros t Ht; split; [unfold all_texts; apply in_or_app; right; apply in_or_app; right; exact Ht|right; apply B, Ht]|intros t Ht; split; [unfold all_texts; apply in_or_app; left; exact Ht|left; apply A, Ht]].
  rewrite app_nil_r. cbn [app].
  assert (Cell : forall i' j', (i' < g_rows g)%nat -> (j' < g_cols g)%nat -> filter (held (place g i j k n)) (lines_in (cells i' j')) = if Nat.eq_dec i i' then if Nat.eq_dec j j' then lines_in (cells i j) else [] else []).
  { intros i' j' Hi' Hj'. assert (Other : (i <> i' \/ j <> j') -> filter (held (place g i j k n)) (lines_in (cells i' j')) = []).
    { intros Ne. apply filter_none. intros l Hl. apply in_flat_map in Hl. destruct Hl as (t & Ht & Hl). destruct (cell_line i' j' t l Hi' Hj' Ht Hl) as (k' & n' & E' & Cv & _). unfold held. destruct (coversb (place g i j k n) (ln_bbox l)) eqn:Eb; [|reflexivity]. exfalso.
      apply coversb_iff in Eb. destruct (line_place t l (cell_in i' j' t Hi' Hj' Ht) Hl) as ((Pl & _) & _). pose proof (places_apart d g r Hd Ok T i j k n i' j' k' n' Hi Hj Hi' Hj' E E' Ne) as Ap.
      pose proof (shared_covers _ _ Eb Pl) as S1. pose proof (shared_apart _ _ (apart_sub _ _ _ Ap Cv)) as S2. pose proof (area_pos _ Pl). lra. }
    destruct (Nat.eq_dec i i') as [<-|Ne]; [|apply Other; left; exact Ne]. destruct (Nat.eq_dec j j') as [<-|Ne]; [|apply Other; right; exact Ne].
    apply filter_all. intros l Hl. apply in_flat_map in Hl. destruct Hl as (t & Ht & Hl). destruct (cell_line i j t l Hi Hj Ht Hl) as (k' & n' & E' & Cv & _). rewrite E in E'. injection E' as <- <-. apply coversb_iff. exact Cv. }
  unfold in_grid.
  assert (Sw : forall ns (f : nat -> list tblock), filter (held (place g i j k n)) (lines_in (flat_map f ns)) = flat_map (fun x => filter (held (place g i j k n)) (lines_in (f x))) ns).
  { clear. induction ns as [|a ns IH]; intros f; [reflexivity|]. cbn [flat_map]. rewrite lines_in_app, filter_app, IH. reflexivity. }
  rewrite Sw. rewrite (one_of_seq _ i (g_rows g) 0); [|lia|].
  - rewrite Sw. rewrite (one_of_seq _ j (g_cols g) 0); [|lia|].
    + rewrite Cell by assumption. destruct (Nat.eq_dec i i); [|lia]. destruct (Nat.eq_dec j j); [reflexivity|lia].
    + intros x Hx Ne. rewrite Cell by lia. destruct (Nat.eq_dec i i); [|lia]. destruct (Nat.eq_dec j x); [lia|reflexivity].
  - intros x Hx Ne. rewrite Sw. assert (Z : forall ns, (forall y, In y ns -> (y < g_cols g)%nat) -> flat_map (fun y => filter (held (place g i j k n)) (lines_in (cells x y))) ns = []).
    { induction ns as [|y ns IH]; intros Hn; [reflexivity|]. cbn [flat_map]. rewrite IH by (intros z Hz; apply Hn; right; exact Hz). rewrite Cell; [|lia|apply Hn; left; reflexivity]. destruct (Nat.eq_dec i x); [lia|reflexivity]. }
    apply Z. intros y Hy. apply in_seq in Hy. lia.
Qed.
(** Blocks of the page: in the frame, above or below it. *)
Definition zoned (b : tblock) : Prop := Rect.covers (frame_box g) (b_bbox b) \/ ry1 (b_bbox b) < ry0 (frame_box g) \/ ry1 (frame_box g) < ry0 (b_bbox b).
Definition tile_texts : list (list tblock) := flat_map (fun i => map (cells i) (seq 0 (g_cols g))) (seq 0 (g_rows g)).
Definition inside (bs : list tblock) : list tblock := filter (fun b => coversb (frame_box g) (b_bbox b)) bs.
Lemma cells_ready rows bs : rows_as_drawn g rows -> Permutation (lines_in bs) (lines_in all_texts) -> (forall b, In b bs -> hulled b /\ zoned b) -> pairwise vsep bs ->
  (forall b i j k n, In b bs -> (i < g_rows g)%nat -> (j < g_cols g)%nat -> r i j = (i, j, k, n) -> Rect.covers (place g i j k n) (b_bbox b) \/ almost_inside (place g i j k n) (b_bbox b) = false) ->
  Forall2 (cell_ready (map tb (inside bs))) (concat rows) tile_texts.
Proof.
  intros (Lr & RD) P Hb V Al. unfold tile_texts. rewrite flat_map_concat_map. apply Forall2_concat. apply Forall2_nth; [rewrite map_length, seq_length; exact Lr|].
  intros i row ys Er Ey. assert (Hi : (i < g_rows g)%nat) by (rewrite <- Lr; apply nth_error_Some; congruence). rewrite nth_error_map in Ey. rewrite (nth_error_nth' (seq 0 (g_rows g)) 0%nat) in Ey by (rewrite seq_length; exact Hi). rewrite seq_nth in Ey by exact Hi. cbn [option_map Nat.add] in Ey. injection Ey as <-.
  destruct (RD i row Er) as (Lc & RC). apply Forall2_nth; [rewrite map_length, seq_length; exact Lc|]. intros j o ts Eo Et.
  assert (Hj : (j < g_cols g)%nat) by (rewrite <- Lc; apply nth_error_Some; congruence). rewrite nth_error_map in Et. rewrite (nth_error_nth' (seq 0 (g_cols g)) 0%nat) in Et by (rewrite seq_length; exact Hj). rewrite seq_nth in Et by exact Hj. cbn [option_map Nat.add] in Et. injection Et as <-.
  pose proof Tx as (Pa & Ot & _ & _ & Td & _ & _ & Ce). destruct (in_grid_parts g cells i j Hi Hj) as (pa & pb & Eg).
  split; [rewrite Forall_forall; intros t Ht; apply text_paragraph, (cell_in i j t Hi Hj Ht)|]. split; [rewrite Eg, <- !app_assoc in Ot; rewrite app_assoc in Ot; apply fop_sub in Ot; exact Ot|]. split; [apply top_down_lines, Td|].
  destruct (RC j o Eo) as (mm & nn & Ext & K). destruct o as [b|].
  - destruct K as (Pm & Pn & Eb & _). pose proof (extent_tile g r T i j mm nn Hi Hj Ext Pm Pn) as E. rewrite Eb. destruct (tile_box i j mm nn Hi Hj E) as ((Pc & _) & Fc). split; [apply GeomProof.proper_truthy, Pc|].
    assert (Lin : forall b l, In b bs -> In l (b_lines b) -> In l (lines_in all_texts)) by (intros x l Hx Hl; eapply Permutation_in; [exact P|]; apply in_flat_map; exists x; split; assumption).
    assert (Bl : forall b l, In b bs -> In l (b_lines b) -> box (ln_bbox l)) by (intros x l Hx Hl; destruct (line_cases l (Lin x l Hx Hl)) as ((P1 & D1 & _) & _); split; assumption).
    destruct (cell_blocks (place g i j mm nn) (inside bs) Pc) as (bs' & A1 & A2 & A3 & A4).
    + intros x Hx. apply filter_In in Hx. destruct Hx as (Hx & Cx). apply coversb_iff in Cx. split; [apply (Hb x Hx)|]. split; [|apply (Al x i j mm nn Hx Hi Hj E)].
      intros l Hl. apply (line_sorted i j mm nn l Hi Hj E (Lin x l Hx Hl)). destruct (hulled_box x (proj1 (Hb x Hx)) (fun l Hl => Bl x l Hx Hl)) as (_ & Cv & _). exact (GeomProof.covers_trans _ _ _ Cx (Cv l Hl)).
    + apply pairwise_filter, V.
    + exists bs'. split; [exact A1|]. split; [|split; [exact A3|intros x Hx; apply (A4 x Hx)]]. rewrite A2, <- (filter_cell i j mm nn Hi Hj E).
      assert (Eq : filter (held (place g i j mm nn)) (lines_in (inside bs)) = filter (held (place g i j mm nn)) (lines_in bs)).
      { clear P V Al A1 A2 A3 A4 bs'. induction bs as [|x xs IH]; [reflexivity|]. unfold inside. cbn [filter]. change (lines_in (x :: xs)) with (b_lines x ++ lines_in xs). rewrite filter_app, <- IH; [|intros y Hy; apply Hb; right; exact Hy|intros y l Hy; apply Lin; right; exact Hy|intros y l Hy; apply Bl; right; exact Hy].
        destruct (coversb (frame_box g) (b_bbox x)) eqn:Cx; [change (lines_in (x :: filter (fun b => coversb (frame_box g) (b_bbox b)) xs)) with (b_lines x ++ lines_in (inside xs)); rewrite filter_app; reflexivity|].
        assert (Z : filter (held (place g i j mm nn)) (b_lines x) = []); [|rewrite Z; reflexivity]. apply filter_none. intros l Hl.
        destruct (Hb x (or_introl eq_refl)) as (Hx & [Zx|Zx]); [apply coversb_iff in Zx; congruence|]. destruct (hulled_box x Hx (fun l Hl => Bl x l (or_introl eq_refl) Hl)) as (_ & Cv & _). destruct (Cv l Hl) as (_ & C2 & _ & C4). destruct (Bl x l (or_introl eq_refl) Hl) as ((_ & Py) & _).
        unfold held. destruct (coversb (place g i j mm nn) (ln_bbox l)) eqn:Eh; [|reflexivity]. exfalso. apply coversb_iff in Eh. destruct Eh as (_ & E2 & _ & E4). destruct Fc as (_ & F2 & _ & F4). lra. }
      rewrite Eq. apply filter_perm, P.
  - destruct (cells i j) as [|t ts] eqn:Ec; [reflexivity|]. exfalso. destruct (Ce i j t Hi Hj ltac:(rewrite Ec; left; reflexivity)) as ((k & n & E & _) & _).
    destruct (tile_extent g r T i j i j k n Hi Hj E) as ((E1 & E2) & _ & _ & Q1 & Q2 & _). destruct Ext as (F1 & F2).
    rewrite (TableProof.run_length_fun _ _ _ _ _ F1 E1), (TableProof.run_length_fun _ _ _ _ _ F2 E2) in K. lia.
Qed.
End Ready.
