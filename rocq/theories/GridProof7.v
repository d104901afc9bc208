From Verif Require Import GeomModel GeomSpec GeomProof ShapeModel TableModel TableProof StoreProof StoreProof3 GridSpec GridProof GridProof2 GridProof3 GridProof4 GridProof5 GridProof6.
From Verif Require Import InterModel LayoutSpec AssignProof FlowProof2 LayoutProof2 LayoutProof3.
From Verif Require TableProps GraphProof TextProof.
From Coq Require Import List Lia Permutation Lqa Sorted Relations.
Import ListNotations.
Open Scope Q_scope.

Lemma fop_app {A} (R : A -> A -> Prop) l m : ForallOrdPairs R l -> ForallOrdPairs R m -> (forall x y, In x l -> In y m -> R x y) -> ForallOrdPairs R (l ++ m).
Proof.
  intros Hl Hm C. induction Hl as [|x l F H IH]; [exact Hm|]. cbn [app]. constructor.
  - apply Forall_app. split; [exact F|]. apply Forall_forall. intros y Hy. apply C; [left; reflexivity|exact Hy].
  - apply IH. intros y z Hy Hz. apply C; [right; exact Hy|exact Hz].
Qed.
Lemma fop_nth {A} (R : A -> A -> Prop) l : (forall a b x y, (a < b)%nat -> nth_error l a = Some x -> nth_error l b = Some y -> R x y) -> ForallOrdPairs R l.
Proof.
  induction l as [|x l IH]; intros H; [constructor|]. constructor.
  - apply Forall_forall. intros y Hy. apply In_nth_error in Hy. destruct Hy as (b & Hb). apply (H 0%nat (S b) x y); [lia|reflexivity|exact Hb].
  - apply IH. intros a b u v L Ha Hb. apply (H (S a) (S b) u v); [lia|exact Ha|exact Hb].
Qed.
Lemma fop_concat {A} (R : A -> A -> Prop) ls : (forall a b x y r s, (a < b)%nat -> nth_error ls a = Some r -> nth_error ls b = Some s -> In x r -> In y s -> R x y) ->
  (forall r, In r ls -> ForallOrdPairs R r) -> ForallOrdPairs R (concat ls).
Proof.
  induction ls as [|r ls IH]; intros H E; [constructor|]. cbn [concat]. apply fop_app; [apply E; left; reflexivity| |].
  - apply IH; [|intros s Hs; apply E; right; exact Hs]. intros a b x y u v L Ha Hb. apply (H (S a) (S b) x y u v); [lia|exact Ha|exact Hb].
  - intros x y Hx Hy. apply in_concat in Hy. destruct Hy as (s & Hs & Hy). apply In_nth_error in Hs. destruct Hs as (b & Hb). apply (H 0%nat (S b) x y r s); [lia|reflexivity|exact Hb|exact Hx|exact Hy].
Qed.
Lemma fop_boxes (l : list (option bcell)) : ForallOrdPairs (fun a b => forall x y, a = Some x -> b = Some y -> AssignSpec.apart (bc_bbox x) (bc_bbox y)) l ->
  ForallOrdPairs AssignSpec.apart (filter rect_bool (map info_box l)).
Proof.
  induction 1 as [|a l F H IH]; [constructor|]. cbn [map filter]. destruct (rect_bool (info_box a)) eqn:E; [|exact IH]. constructor; [|exact IH].
  apply Forall_forall. intros r Hr. apply filter_In in Hr. destruct Hr as (Hr & Tr). apply in_map_iff in Hr. destruct Hr as (b & <- & Hb).
  rewrite Forall_forall in F. destruct a as [x|]; [|discriminate]. destruct b as [y|]; [|discriminate]. exact (F (Some y) Hb x y eq_refl eq_refl).
Qed.

Section Tidy.
Variables (d : Q) (g : grid) (r : nat -> nat -> region).
Hypothesis Hd : 1 <= d.
Hypothesis Ok : grid_ok d g.
Hypothesis T : tiles g r.
Lemma extent_tile i j m n : (i < g_rows g)%nat -> (j < g_cols g)%nat -> cell_extent g i j m n -> (0 < m)%nat -> (0 < n)%nat -> r i j = (i, j, m, n).
Proof.
  intros Hi Hj E Pm Pn. pose proof T as (P & B). assert (X1 : has_top g i j) by (destruct E as ([(_ & Z)|(Z & _)] & _); [lia|exact Z]). assert (X2 : has_left g i j) by (destruct E as (_ & [(_ & Z)|(Z & _)]); [lia|exact Z]).
  assert (Et : reg_top (r i j) = i) by (apply (B i j Hi Hj); exact X1). assert (El : reg_left (r i j) = j) by (apply (B i j Hi Hj); exact X2).
  destruct (r i j) as [[[i' j'] m'] n'] eqn:Er. cbn [reg_top reg_left] in Et, El. subst i' j'.
  destruct (tile_extent g r T i j i j m' n' Hi Hj Er) as ((E1' & E2') & _). destruct E as (E1 & E2).
  rewrite (run_length_fun _ _ _ _ _ E1 E1'), (run_length_fun _ _ _ _ _ E2 E2'). reflexivity.
Qed.
Lemma places_apart i j m n i' j' m' n' : (i < g_rows g)%nat -> (j < g_cols g)%nat -> (i' < g_rows g)%nat -> (j' < g_cols g)%nat ->
  r i j = (i, j, m, n) -> r i' j' = (i', j', m', n') -> (i <> i' \/ j <> j') -> AssignSpec.apart (place g i j m n) (place g i' j' m' n').
Proof.
  intros Hi Hj Hi' Hj' E E' Ne. pose proof T as (P & _). destruct (P i j Hi Hj) as (I & C). destruct (P i' j' Hi' Hj') as (I' & C'). rewrite E in *. rewrite E' in *. cbn [in_region] in I, I'.
  destruct (C (i + m - 1)%nat (j + n - 1)%nat) as (L1 & L2 & _); [cbn [in_region]; lia|]. destruct (C' (i' + m' - 1)%nat (j' + n' - 1)%nat) as (L1' & L2' & _); [cbn [in_region]; lia|].
  assert (S : (i + m <= i' \/ i' + m' <= i \/ j + n <= j' \/ j' + n' <= j)%nat).
  { destruct (le_dec (i + m) i'); [auto|]. destruct (le_dec (i' + m') i); [auto|]. destruct (le_dec (j + n) j'); [auto|]. destruct (le_dec (j' + n') j); [auto|]. exfalso.
    destruct (C (Nat.max i i') (Nat.max j j')) as (_ & _ & X); [cbn [in_region]; lia|]. destruct (C' (Nat.max i i') (Nat.max j j')) as (_ & _ & Y); [cbn [in_region]; lia|].
    rewrite X in Y. injection Y as -> -> -> ->. lia. }
  unfold AssignSpec.apart, place, rround. cbn [rx0 ry0 rx1 ry1].
  destruct S as [S|[S|[S|S]]]; [right; right; left|right; right; right|left|right; left]; apply round_p_mono; first [apply (bxle d g Hd Ok)|apply (byle d g Hd Ok)]; lia.
Qed.
Lemma drawn_tidy rows : rows_as_drawn g rows -> tidy [(frame_table g, concat rows)].
Proof.
  intros RD. pose proof Ok as (C1 & C2 & _).
  assert (Cell : forall i j row b, nth_error rows i = Some row -> nth_error row j = Some (Some b) -> (i < g_rows g)%nat /\ (j < g_cols g)%nat /\ exists m n, r i j = (i, j, m, n) /\ bc_bbox b = place g i j m n /\ box (bc_bbox b)).
  { intros i j row b Hr Hb. pose proof RD as (_ & R2). destruct (R2 i row Hr) as (_ & Rc). destruct (Rc j _ Hb) as (m & n & Ext & Pm & Pn & Eb & _).
    destruct (in_range g rows i row j b m n RD Hr Hb Ext) as (A1 & A2 & A3 & A4). split; [exact A1|]. split; [exact A2|]. exists m, n. split; [apply extent_tile; assumption|]. split; [exact Eb|]. rewrite Eb. apply (place_box d g Hd Ok); assumption. }
  split; [|split].
  - constructor; [|constructor]. destruct (place_box d g Hd Ok 0 0 (g_rows g) (g_cols g)) as ((P & _) & _); try lia. exact P.
  - constructor; [constructor|constructor].
  - intros t [<-|[]]. unfold cell_boxes. cbn [snd]. split.
    + apply Forall_forall. intros x Hx. apply filter_In in Hx. destruct Hx as (Hx & Tx). apply in_map_iff in Hx. destruct Hx as ([b|] & <- & Hb); [|discriminate].
      apply in_concat in Hb. destruct Hb as (row & Hr & Hb). apply In_nth_error in Hr. destruct Hr as (i & Hi). apply In_nth_error in Hb. destruct Hb as (j & Hj).
      destruct (Cell i j row b Hi Hj) as (_ & _ & m & n & _ & _ & (Pb & _)). exact Pb.
    + apply fop_boxes. apply fop_concat.
      * intros a b x y ra rb L Ha Hb Hx Hy u v -> ->. apply In_nth_error in Hx. destruct Hx as (j & Hj). apply In_nth_error in Hy. destruct Hy as (j' & Hj').
        destruct (Cell a j ra u Ha Hj) as (A1 & A2 & m & n & A3 & -> & _). destruct (Cell b j' rb v Hb Hj') as (B1 & B2 & m' & n' & B3 & -> & _). apply places_apart; try assumption. left. lia.
      * intros row Hr. apply In_nth_error in Hr. destruct Hr as (i & Hi). apply fop_nth. intros a b x y L Ha Hb u v -> ->.
        destruct (Cell i a row u Hi Ha) as (A1 & A2 & m & n & A3 & -> & _). destruct (Cell i b row v Hi Hb) as (B1 & B2 & m' & n' & B3 & -> & _). apply places_apart; try assumption. right. lia.
Qed.
End Tidy.
