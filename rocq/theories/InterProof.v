From Verif Require Import InterModel InterSpec GraphSpec GraphProof.
From Coq Require Import Relations.
Open Scope Q_scope.

Definition sorted_by (f : item -> Q) (l : list item) : Prop := StronglySorted (fun a b => f a <= f b) l.

Lemma sort_key1_sorted (f : item -> Q) l : sorted_by f (sort_key (fun i => [f i]) l).
Proof.
  unfold sort_key, sorted_by. pose proof (py_sort_sorted (fun a b => lex_le [f a] [f b])
    (fun x y => lex_le_total _ _) (fun x y z => lex_le_trans _ _ _) l) as S.
  induction S as [|a t _ IH F]; constructor; [exact IH|]. rewrite Forall_forall in *. intros x Hx.
  specialize (F x Hx). cbn [lex_le] in F. qcases; try discriminate; lra.
Qed.
Lemma sort_key1_In (f : item -> Q) l x : In x (sort_key (fun i => [f i]) l) <-> In x l.
Proof. apply py_sort_In. Qed.

Lemma sorted_tail f a l : sorted_by f (a :: l) -> sorted_by f l /\ forall x, In x l -> f a <= f x.
Proof. intros H. inversion H as [|? ? H1 H2]; subst. rewrite Forall_forall in H2. auto. Qed.

Lemma take_while_In {A} (g : A -> bool) l x : In x (take_while g l) -> In x l /\ g x = true.
Proof.
  induction l as [|y t IH]; cbn; [tauto|]. destruct (g y) eqn:E; cbn; [|tauto].
  intros [<-|H]; [auto|]. destruct (IH H). auto.
Qed.
Lemma take_while_sorted f (l : list item) c x : sorted_by f l -> In x l -> f x < c ->
  In x (take_while (fun k => qlt (f k) c) l).
Proof.
  induction l as [|y t IH]; cbn; intros S H Hc; [destruct H|]. destruct (sorted_tail f y t S) as [St Sy].
  destruct H as [<-|H].
  - destruct (qlt_spec (f y) c); [left; reflexivity|contradiction].
  - specialize (Sy x H). destruct (qlt_spec (f y) c); [right; apply IH; assumption|lra].
Qed.

Definition y0 (i : item) : Q := ry0 (it_rect i).
Definition y1 (i : item) : Q := ry1 (it_rect i).

(** Reported by [_stab]: one starts while the other is open. *)
Lemma stab_loop_sound fuel : forall s1 s2 p, sorted_by y0 s1 -> sorted_by y0 s2 ->
  In p (stab_loop fuel s1 s2) -> exists a b, In a s1 /\ In b s2 /\ p = (owner a, owner b) /\
    ((y0 a <= y0 b /\ y0 b < y1 a) \/ (y0 b <= y0 a /\ y0 a < y1 b)).
Proof.
  induction fuel as [|fuel IH]; intros s1 s2 p H1 H2 H; [destruct H|].
  cbn [stab_loop] in H. destruct s1 as [|a t1]; [destruct H|]. destruct s2 as [|b t2]; [destruct H|].
  destruct (sorted_tail _ _ _ H1) as [H1t H1a]. destruct (sorted_tail _ _ _ H2) as [H2t H2b].
  destruct (qlt_spec (ry0 (it_rect a)) (ry0 (it_rect b))) as [L|L]; apply in_app_or in H; destruct H as [H|H].
  - apply in_map_iff in H. destruct H as (k & <- & Hk). apply take_while_In in Hk. destruct Hk as [Hk Hl].
    apply qlt_iff in Hl. exists a, k. split; [left; reflexivity|]. split; [exact Hk|]. split; [reflexivity|]. left.
    unfold y0, y1 in *. split; [|exact Hl]. destruct Hk as [<-|Hk]; [lra|]. specialize (H2b k Hk). cbv beta in H2b. lra.
  - destruct (IH t1 (b :: t2) p H1t H2 H) as (x & z & Hx & Hz & R). exists x, z. split; [right; exact Hx|]. split; assumption.
  - apply in_map_iff in H. destruct H as (k & <- & Hk). apply take_while_In in Hk. destruct Hk as [Hk Hl].
    apply qlt_iff in Hl. exists k, b. split; [exact Hk|]. split; [left; reflexivity|]. split; [reflexivity|]. right.
    unfold y0, y1 in *. split; [|exact Hl]. destruct Hk as [<-|Hk]; [lra|]. specialize (H1a k Hk). cbv beta in H1a. lra.
  - destruct (IH (a :: t1) t2 p H1 H2t H) as (x & z & Hx & Hz & R). exists x, z. split; [exact Hx|]. split; [right; exact Hz|exact R].
Qed.
Lemma stab_loop_complete fuel : forall s1 s2 a b, (length s1 + length s2 <= fuel)%nat -> sorted_by y0 s1 -> sorted_by y0 s2 ->
  In a s1 -> In b s2 -> y0 a < y1 b -> y0 b < y1 a -> In (owner a, owner b) (stab_loop fuel s1 s2).
Proof.
  induction fuel as [|fuel IH]; intros s1 s2 a b Hf H1 H2 Ha Hb Hab Hba.
  - destruct s1; [destruct Ha|cbn in Hf; lia].
  - cbn [stab_loop]. destruct s1 as [|c t1]; [destruct Ha|]. destruct s2 as [|d t2]; [destruct Hb|].
    destruct (sorted_tail _ _ _ H1) as [H1t H1a]. destruct (sorted_tail _ _ _ H2) as [H2t H2b]. cbn [length] in Hf.
    destruct (qlt_spec (ry0 (it_rect c)) (ry0 (it_rect d))) as [L|L]; apply in_or_app.
    + destruct Ha as [<-|Ha].
      * left. apply in_map_iff. exists b. split; [reflexivity|]. apply (take_while_sorted y0); assumption.
      * right. apply IH; auto. cbn [length]. lia.
    + destruct Hb as [<-|Hb].
      * left. apply in_map_iff. exists a. split; [reflexivity|]. apply (take_while_sorted y0); assumption.
      * right. apply IH; auto. cbn [length]. lia.
Qed.
Lemma stab_sound s1 s2 p : In p (stab s1 s2) -> exists a b, In a s1 /\ In b s2 /\ p = (owner a, owner b) /\
    ((y0 a <= y0 b /\ y0 b < y1 a) \/ (y0 b <= y0 a /\ y0 a < y1 b)).
Proof.
  unfold stab. intros H. apply stab_loop_sound in H; [|apply (sort_key1_sorted y0)|apply (sort_key1_sorted y0)].
  destruct H as (a & b & Ha & Hb & R). exists a, b. unfold by_y0 in Ha, Hb. rewrite sort_key1_In in Ha, Hb. auto.
Qed.
Lemma stab_complete s1 s2 a b : In a s1 -> In b s2 -> y0 a < y1 b -> y0 b < y1 a -> In (owner a, owner b) (stab s1 s2).
Proof.
  intros Ha Hb H1 H2. unfold stab. apply stab_loop_complete; auto.
  - unfold by_y0, sort_key. rewrite !py_sort_length. lia.
  - apply (sort_key1_sorted y0).
  - apply (sort_key1_sorted y0).
  - apply (sort_key1_In y0). exact Ha.
  - apply (sort_key1_In y0). exact Hb.
Qed.

(* ------------------------------------------------------------------ *)
Lemma sorted_app f l1 l2 : sorted_by f (l1 ++ l2) ->
  sorted_by f l1 /\ sorted_by f l2 /\ forall a b, In a l1 -> In b l2 -> f a <= f b.
Proof.
  induction l1 as [|x t IH]; cbn; intros H.
  - split; [constructor|]. split; [exact H|]. intros a b [].
  - destruct (sorted_tail _ _ _ H) as [Ht Hx]. destruct (IH Ht) as (S1 & S2 & S3). split; [|split].
    + constructor; [exact S1|]. apply Forall_forall. intros z Hz. apply Hx. apply in_or_app. auto.
    + exact S2.
    + intros a b [<-|Ha] Hb; [apply Hx; apply in_or_app; auto|apply S3; assumption].
Qed.
Lemma first_x_min v i : sorted_by it_x v -> In i v -> first_x v <= it_x i.
Proof.
  intros S H. destruct v as [|x t]; [destruct H|]. destruct (sorted_tail _ _ _ S) as [_ Hx]. cbn.
  destruct H as [<-|H]; [lra|apply Hx; exact H].
Qed.
Lemma last_x_split v : v <> [] -> exists u i, v = u ++ [i] /\ last_x v = it_x i.
Proof.
  intros H. destruct (exists_last H) as (u & i & ->). exists u, i. split; [reflexivity|].
  unfold last_x. rewrite rev_app_distr. reflexivity.
Qed.
Lemma last_x_max v i : sorted_by it_x v -> In i v -> it_x i <= last_x v.
Proof.
  intros S H. destruct (last_x_split v) as (u & j & E & L); [intros ->; destruct H|].
  rewrite L. rewrite E in S, H. destruct (sorted_app _ _ _ S) as (_ & _ & S3).
  apply in_app_or in H. destruct H as [H|[<-|[]]]; [apply S3; [exact H|left; reflexivity]|lra].
Qed.
Lemma last_x_In v : v <> [] -> exists i, In i v /\ last_x v = it_x i.
Proof. intros H. destruct (last_x_split v H) as (u & i & E & L). exists i. split; [rewrite E; apply in_or_app; right; left; reflexivity|exact L]. Qed.
Lemma first_x_In v : v <> [] -> exists i, In i v /\ first_x v = it_x i.
Proof. destruct v as [|i t]; intros H; [congruence|]. exists i. split; [left; reflexivity|reflexivity]. Qed.

(** Facts about an item: it is one of the two edges of its box. *)
Definition item_ok (i : item) : Prop :=
  (it_x i = rx0 (it_rect i) \/ it_x i = rx1 (it_rect i)) /\ rx0 (it_rect i) <= rx1 (it_rect i).
Lemma item_range i : item_ok i -> rx0 (it_rect i) <= it_x i <= rx1 (it_rect i).
Proof. intros [[->| ->] H]; lra. Qed.

Definition touching (a b : rect) : Prop :=
  rx0 a <= rx1 b /\ rx0 b <= rx1 a /\ ((ry0 a <= ry0 b /\ ry0 b < ry1 a) \/ (ry0 b <= ry0 a /\ ry0 a < ry1 b)).

Lemma half_lt n : (2 <= n)%nat -> (0 < Nat.div2 n < n)%nat.
Proof. intros H. pose proof (Nat.div2_odd n). destruct (Nat.odd n); cbn [Nat.b2n] in *; lia. Qed.

Lemma solve_sound fuel : forall v p, sorted_by it_x v -> (forall i, In i v -> item_ok i) ->
  In p (solve fuel v) -> exists a b, In a v /\ In b v /\ p = (owner a, owner b) /\ touching (it_rect a) (it_rect b).
Proof.
  induction fuel as [|fuel IH]; intros v p S Hok H; [destruct H|].
  cbn [solve] in H. destruct (Nat.ltb (length v) 2) eqn:E; [destruct H|]. apply Nat.ltb_ge in E. cbv zeta in H.
  set (c := Nat.div2 (length v)) in *. set (L := firstn c v) in *. set (R := skipn c v) in *.
  assert (Ev : v = L ++ R) by (symmetry; apply firstn_skipn).
  pose proof (half_lt (length v) E) as Hc.
  assert (HL : L <> []) by (intros Z; apply (f_equal (@length item)) in Z; unfold L in Z; rewrite firstn_length in Z; cbn in Z; unfold c in *; lia).
  assert (HLv : forall i, In i L -> In i v) by (intros i Hi; rewrite Ev; apply in_or_app; auto).
  assert (HRv : forall i, In i R -> In i v) by (intros i Hi; rewrite Ev; apply in_or_app; auto).
  rewrite Ev in S. destruct (sorted_app _ _ _ S) as (SL & SR & SLR). rewrite <- Ev in S.
  destruct (last_x_In L HL) as (m & Hm & Xm).
  assert (X0 : forall i, In i v -> first_x v <= it_x i) by (intros i Hi; apply first_x_min; assumption).
  assert (X1 : forall i, In i v -> it_x i <= last_x v) by (intros i Hi; apply last_x_max; assumption).
  assert (XL : forall i, In i L -> it_x i <= last_x L) by (intros i Hi; apply last_x_max; assumption).
  assert (XR : forall i, In i R -> last_x L <= it_x i) by (intros i Hi; rewrite Xm; apply SLR; assumption).
  repeat (apply in_app_or in H; destruct H as [H|H]).
  - apply stab_sound in H. destruct H as (a & b & Ha & Hb & Ep & Y). apply filter_In in Ha. apply filter_In in Hb.
    destruct Ha as [Ha Ca], Hb as [Hb Cb]. apply qle_iff in Ca. apply qlt_iff in Cb.
    exists a, b. split; [auto|]. split; [auto|]. split; [exact Ep|]. unfold touching. split; [|split; [|exact Y]].
    + pose proof (item_range a (Hok a (HLv a Ha))). pose proof (item_range b (Hok b (HRv b Hb))). pose proof (XL a Ha). lra.
    + pose proof (item_range b (Hok b (HRv b Hb))). pose proof (X1 b (HRv b Hb)). lra.
  - apply stab_sound in H. destruct H as (a & b & Ha & Hb & Ep & Y). apply filter_In in Ha. apply filter_In in Hb.
    destruct Ha as [Ha Ca], Hb as [Hb Cb]. apply qle_iff in Ca. apply qle_iff in Cb.
    exists a, b. split; [auto|]. split; [auto|]. split; [exact Ep|]. unfold touching. split; [|split; [|exact Y]].
    + pose proof (item_range b (Hok b (HLv b Hb))). pose proof (X0 b (HLv b Hb)). lra.
    + pose proof (item_range a (Hok a (HRv a Ha))). pose proof (item_range b (Hok b (HLv b Hb))). pose proof (XR a Ha). lra.
  - apply stab_sound in H. destruct H as (a & b & Ha & Hb & Ep & Y). apply filter_In in Ha. apply filter_In in Hb.
    destruct Ha as [Ha Ca], Hb as [Hb Cb]. apply qle_iff in Ca. apply qle_iff in Cb.
    exists a, b. split; [auto|]. split; [auto|]. split; [exact Ep|]. unfold touching.
    pose proof (item_range a (Hok a (HLv a Ha))). pose proof (XL a Ha).
    pose proof (item_range b (Hok b (HRv b Hb))). pose proof (XR b Hb). pose proof (X1 b (HRv b Hb)). pose proof (X0 b (HRv b Hb)).
    split; [lra|]. split; [lra|exact Y].
  - destruct (IH L p SL) as (a & b & Ha & Hb & Rr); auto. exists a, b. auto.
  - destruct (IH R p SR) as (a & b & Ha & Hb & Rr); auto. exists a, b. auto.
Qed.

(** Completeness for one pair of boxes [k1], [k2] (edges [a0 a1], [b0 b1]). *)
Section Pair.
Variable full : list item.
Hypothesis S_full : sorted_by it_x full.

(** Both edges of the box [r] are in the list, left edge [e0], right edge [e1]. *)
Definition edges_in (e0 e1 : item) (k : nat) (r : rect) : Prop :=
  In e0 full /\ In e1 full /\ it_rect e0 = r /\ it_rect e1 = r /\ it_x e0 = rx0 r /\ it_x e1 = rx1 r /\
  owner e0 = k /\ owner e1 = k /\ (forall i, In i full -> owner i = k -> i = e0 \/ i = e1).

(** Where the edges of a box can be relative to a contiguous part [v] of the list. *)
Lemma right_edge_place P v T e0 e1 k r : full = P ++ v ++ T -> edges_in e0 e1 k r -> rx0 r < rx1 r ->
  In e0 v -> ~ In e1 v -> last_x v <= rx1 r.
Proof.
  intros E (H0 & H1 & _ & _ & X0 & X1 & _) Hr Hin Hn.
  rewrite E in H1, S_full. destruct (sorted_app _ _ _ S_full) as (_ & S2 & S3). destruct (sorted_app _ _ _ S2) as (_ & _ & S5).
  assert (Hv : v <> []) by (intros ->; destruct Hin).
  destruct (last_x_In v Hv) as (m & Hm & Em).
  apply in_app_or in H1. destruct H1 as [H1|H1].
  - exfalso. specialize (S3 e1 e0 H1 (in_or_app v T e0 (or_introl Hin))). rewrite X0, X1 in S3. lra.
  - apply in_app_or in H1. destruct H1 as [H1|H1]; [contradiction|].
    rewrite Em, <- X1. apply S5; assumption.
Qed.
Lemma left_edge_place P v T e0 e1 k r : full = P ++ v ++ T -> edges_in e0 e1 k r -> rx0 r < rx1 r ->
  In e1 v -> ~ In e0 v -> rx0 r <= first_x v.
Proof.
  intros E (H0 & H1 & _ & _ & X0 & X1 & _) Hr Hin Hn.
  rewrite E in H0, S_full. destruct (sorted_app _ _ _ S_full) as (_ & S2 & S3). destruct (sorted_app _ _ _ S2) as (_ & _ & S5).
  assert (Hv : v <> []) by (intros ->; destruct Hin).
  destruct (first_x_In v Hv) as (m & Hm & Em).
  apply in_app_or in H0. destruct H0 as [H0|H0].
  - rewrite Em, <- X0. apply S3; [exact H0|apply in_or_app; left; exact Hm].
  - apply in_app_or in H0. destruct H0 as [H0|H0]; [contradiction|].
    exfalso. specialize (S5 e1 e0 Hin H0). rewrite X0, X1 in S5. lra.
Qed.

Variables (k1 k2 : nat) (ra rb : rect) (a0 a1 b0 b1 : item).
Hypothesis Ea : edges_in a0 a1 k1 ra.
Hypothesis Eb : edges_in b0 b1 k2 rb.
Hypothesis Pa : rx0 ra < rx1 ra.
Hypothesis Pb : rx0 rb < rx1 rb.
Hypothesis Hov : overlap_open ra rb.
(** No other edge at the left edge of the right one of the two boxes, or no edge left of it. *)
Definition clear_edge (k : nat) (r : rect) : Prop :=
  (forall i, In i full -> it_x i == rx0 r -> owner i = k) \/ (forall i, In i full -> rx0 r <= it_x i).
Hypothesis Da : rx0 rb <= rx0 ra -> clear_edge k1 ra.
Hypothesis Db : rx0 ra <= rx0 rb -> clear_edge k2 rb.
Hypothesis Hne : k1 <> k2.

Definition found (ps : list (nat * nat)) : Prop := In (k1, k2) ps \/ In (k2, k1) ps.
Definition has (k : nat) (l : list item) : Prop := exists i, In i l /\ owner i = k.

Lemma split_case P L R T ka kb ea0 ea1 eb0 eb1 r1 r2 :
  full = P ++ (L ++ R) ++ T -> L <> [] ->
  edges_in ea0 ea1 ka r1 -> edges_in eb0 eb1 kb r2 -> rx0 r1 < rx1 r1 -> rx0 r2 < rx1 r2 ->
  overlap_open r1 r2 -> (rx0 r1 <= rx0 r2 -> clear_edge kb r2) -> ka <> kb ->
  has ka L -> ~ has kb L -> ~ has ka R -> has kb R ->
  let v := L ++ R in
  In (ka, kb) (stab (filter (fun i => qle (last_x v) (rx1 (it_rect i))) L) (filter (fun i => qlt (last_x L) (rx0 (it_rect i))) R)) \/
  In (kb, ka) (stab (filter (fun i => qle (rx0 (it_rect i)) (first_x v)) R) (filter (fun i => qle (rx1 (it_rect i)) (last_x L)) L)) \/
  In (ka, kb) (stab (filter (fun i => qle (last_x v) (rx1 (it_rect i))) L) (filter (fun i => qle (rx0 (it_rect i)) (first_x v)) R)).
Proof.
  intros E HL E1 E2 P1 P2 Ov D2 Hk (ia & HiaL & Oa) NbL NaR (ib & HibR & Ob) v.
  assert (S0 := S_full). rewrite E in S0. destruct (sorted_app _ _ _ S0) as (_ & S1 & _). destruct (sorted_app _ _ _ S1) as (Sv & _ & _).
  destruct (sorted_app _ _ _ Sv) as (SL & SR & SLR).
  destruct (last_x_In L HL) as (m & Hm & Xm).
  assert (Fv : forall i, In i (L ++ R) -> In i full).
  { intros i Hi. rewrite E. apply in_or_app. right. apply in_or_app. left. exact Hi. }
  destruct E1 as (A0 & A1 & RA0 & RA1 & XA0 & XA1 & OA0 & OA1 & UA) eqn:EE1. clear EE1.
  destruct E2 as (B0 & B1 & RB0 & RB1 & XB0 & XB1 & OB0 & OB1 & UB) eqn:EE2. clear EE2.
  assert (E1' : edges_in ea0 ea1 ka r1) by (unfold edges_in; auto 10).
  assert (E2' : edges_in eb0 eb1 kb r2) by (unfold edges_in; auto 10).
  assert (Ria : it_rect ia = r1).
  { destruct (UA ia (Fv ia (in_or_app _ _ _ (or_introl HiaL))) Oa) as [->| ->]; assumption. }
  assert (Rib : it_rect ib = r2).
  { destruct (UB ib (Fv ib (in_or_app _ _ _ (or_intror HibR))) Ob) as [->| ->]; assumption. }
  (* position of box a *)
  assert (CA : rx1 r1 <= last_x L \/ last_x v <= rx1 r1).
  { destruct (UA ia (Fv ia (in_or_app _ _ _ (or_introl HiaL))) Oa) as [Eia|Eia].
    - destruct (in_dec (fun x y : item => ltac:(repeat decide equality)) ea1 (L ++ R)) as [Hin|Hout].
      + left. apply in_app_or in Hin. destruct Hin as [Hin|Hin].
        * rewrite <- XA1. apply last_x_max; assumption.
        * exfalso. apply NaR. exists ea1. auto.
      + right. apply (right_edge_place P v T ea0 ea1 ka r1 E E1' P1); [|exact Hout].
        rewrite <- Eia. apply in_or_app. left. exact HiaL.
    - left. rewrite <- XA1, <- Eia. apply last_x_max; assumption. }
  (* position of box b *)
  assert (CB : last_x L < rx0 r2 \/ rx0 r2 <= first_x v).
  { assert (G : In eb0 R -> last_x L < rx0 r2 \/ rx0 r2 <= first_x v).
    { intros Hin. pose proof (SLR m eb0 Hm Hin) as Hle. rewrite XB0 in Hle. rewrite Xm.
      assert (Le : rx0 r1 <= rx0 r2).
      { pose proof (SLR ia eb0 HiaL Hin) as Hi. rewrite XB0 in Hi.
        destruct (UA ia (Fv ia (in_or_app _ _ _ (or_introl HiaL))) Oa) as [-> | ->]; [rewrite XA0 in Hi; exact Hi|rewrite XA1 in Hi; lra]. }
      destruct (D2 Le) as [D3|D3].
      - left. destruct (Qlt_le_dec (it_x m) (rx0 r2)) as [Hlt|Hge]; [exact Hlt|exfalso].
        apply NbL. exists m. split; [exact Hm|]. apply D3; [apply Fv, in_or_app; left; exact Hm|lra].
      - right. destruct (first_x_In v) as (f & Hf & ->); [unfold v; intros Z; apply app_eq_nil in Z; tauto|]. apply D3, Fv, Hf. }
    destruct (UB ib (Fv ib (in_or_app _ _ _ (or_intror HibR))) Ob) as [Eib|Eib].
    - apply G. rewrite <- Eib. exact HibR.
    - destruct (in_dec (fun x y : item => ltac:(repeat decide equality)) eb0 (L ++ R)) as [Hin|Hout].
      + apply G. apply in_app_or in Hin. destruct Hin as [Hin|Hin]; [|exact Hin].
        exfalso. apply NbL. exists eb0. auto.
      + right. apply (left_edge_place P v T eb0 eb1 kb r2 E E2' P2); [|exact Hout].
        rewrite <- Eib. apply in_or_app. right. exact HibR. }
  destruct Ov as (O1 & O2 & O3 & O4).
  assert (Ya : y0 ia < y1 ib) by (unfold y0, y1; rewrite Ria, Rib; exact O3).
  assert (Yb : y0 ib < y1 ia) by (unfold y0, y1; rewrite Ria, Rib; exact O4).
  rewrite <- Oa, <- Ob.
  destruct CA as [CA|CA], CB as [CB|CB].
  - exfalso. lra.
  - right. left. apply stab_complete; auto; apply filter_In; (split; [assumption|]); apply qle_iff; rewrite ?Ria, ?Rib; assumption.
  - left. apply stab_complete; auto; apply filter_In; (split; [assumption|]).
    + apply qle_iff. rewrite Ria. exact CA.
    + apply qlt_iff. rewrite Rib. exact CB.
  - right. right. apply stab_complete; auto; apply filter_In; (split; [assumption|]); apply qle_iff; rewrite ?Ria, ?Rib; assumption.
Qed.

Lemma has_dec k l : has k l \/ ~ has k l.
Proof.
  induction l as [|x t IH].
  - right. intros (i & [] & _).
  - destruct (Nat.eq_dec (owner x) k) as [E|E]; [left; exists x; split; [left; reflexivity|exact E]|].
    destruct IH as [(i & Hi & Oi)|N]; [left; exists i; split; [right; exact Hi|exact Oi]|].
    right. intros (i & [<-|Hi] & Oi); [contradiction|]. apply N. exists i. auto.
Qed.
Lemma has_app k l1 l2 : has k (l1 ++ l2) -> has k l1 \/ has k l2.
Proof. intros (i & Hi & Oi). apply in_app_or in Hi. destruct Hi; [left|right]; exists i; auto. Qed.
Lemma found_app ps qs : found ps \/ found qs -> found (ps ++ qs).
Proof. unfold found. intros [[H|H]|[H|H]]; [left|right|left|right]; apply in_or_app; auto. Qed.
Lemma overlap_open_sym r s : overlap_open r s -> overlap_open s r.
Proof. unfold overlap_open. intros (? & ? & ? & ?). auto. Qed.

Lemma solve_complete fuel : forall P v T, (length v <= fuel)%nat -> full = P ++ v ++ T ->
  has k1 v -> has k2 v -> found (solve fuel v).
Proof.
  induction fuel as [|fuel IH]; intros P v T Hlen E H1 H2.
  - destruct v; [destruct H1 as (i & [] & _)|cbn in Hlen; lia].
  - cbn [solve]. destruct (Nat.ltb (length v) 2) eqn:El.
    + exfalso. apply Nat.ltb_lt in El. destruct H1 as (i & Hi & Oi), H2 as (j & Hj & Oj).
      destruct v as [|x [|y t]]; [destruct Hi| |cbn in El; lia].
      destruct Hi as [<-|[]], Hj as [<-|[]]. congruence.
    + apply Nat.ltb_ge in El. cbv zeta.
      set (c := Nat.div2 (length v)) in *. set (L := firstn c v) in *. set (R := skipn c v) in *.
      assert (Ev : v = L ++ R) by (symmetry; apply firstn_skipn).
      pose proof (half_lt (length v) El) as Hc. fold c in Hc.
      assert (LL : length L = c) by (unfold L; rewrite firstn_length; lia).
      assert (LR : length R = (length v - c)%nat) by (unfold R; rewrite skipn_length; lia).
      assert (HL : L <> []) by (intros Z; rewrite Z in LL; cbn in LL; lia).
      assert (EL : full = P ++ L ++ (R ++ T)) by (rewrite E, Ev, <- app_assoc; reflexivity).
      assert (ER : full = (P ++ L) ++ R ++ T) by (rewrite E, Ev, <- !app_assoc; reflexivity).
      assert (EV : full = P ++ (L ++ R) ++ T) by (rewrite <- Ev; exact E).
      assert (GL : has k1 L -> has k2 L -> found (solve fuel L)) by (intros; apply (IH P L (R ++ T)); auto; lia).
      assert (GR : has k1 R -> has k2 R -> found (solve fuel R)) by (intros; apply (IH (P ++ L) R T); auto; lia).
      rewrite Ev in H1, H2. apply has_app in H1. apply has_app in H2.
      destruct (has_dec k1 L) as [A1|A1], (has_dec k2 L) as [A2|A2].
      * apply found_app. right. apply found_app. right. apply found_app. right. apply found_app. left. auto.
      * destruct H2 as [H2|H2]; [contradiction|]. destruct (has_dec k1 R) as [B1|B1].
        -- apply found_app. right. apply found_app. right. apply found_app. right. apply found_app. right. auto.
        -- destruct (split_case P L R T k1 k2 a0 a1 b0 b1 ra rb EV HL Ea Eb Pa Pb Hov Db Hne A1 A2 B1 H2) as [G|[G|G]];
             rewrite <- Ev in G.
           ++ apply found_app. left. left. exact G.
           ++ apply found_app. right. apply found_app. left. right. exact G.
           ++ apply found_app. right. apply found_app. right. apply found_app. left. left. exact G.
      * destruct H1 as [H1|H1]; [contradiction|]. destruct (has_dec k2 R) as [B2|B2].
        -- apply found_app. right. apply found_app. right. apply found_app. right. apply found_app. right. auto.
        -- assert (Hne' : k2 <> k1) by (intros Z; apply Hne; symmetry; exact Z).
           destruct (split_case P L R T k2 k1 b0 b1 a0 a1 rb ra EV HL Eb Ea Pb Pa (overlap_open_sym _ _ Hov) Da Hne' A2 A1 B2 H1) as [G|[G|G]];
             rewrite <- Ev in G.
           ++ apply found_app. left. right. exact G.
           ++ apply found_app. right. apply found_app. left. left. exact G.
           ++ apply found_app. right. apply found_app. right. apply found_app. left. right. exact G.
      * destruct H1 as [H1|H1]; [contradiction|]. destruct H2 as [H2|H2]; [contradiction|].
        apply found_app. right. apply found_app. right. apply found_app. right. apply found_app. right. auto.
Qed.
End Pair.

(* ------------------------------------------------------------------ *)
(** * A family of boxes *)
Lemma edges_of_In rs : forall k i, In i (edges_of k rs) <->
  exists n r, nth_error rs n = Some r /\ (i = mkItem (2 * (k + n)) r (rx0 r) \/ i = mkItem (2 * (k + n) + 1) r (rx1 r)).
Proof.
  induction rs as [|r t IH]; intros k i.
  - cbn. split; [intros []|]. intros (n & r & H & _). destruct n; discriminate.
  - cbn [edges_of In]. rewrite IH. split.
    + intros [<-|[<-|(n & r' & H & D)]].
      * exists 0%nat, r. split; [reflexivity|]. left. f_equal. lia.
      * exists 0%nat, r. split; [reflexivity|]. right. f_equal. lia.
      * exists (S n), r'. split; [exact H|]. replace (k + S n)%nat with (S k + n)%nat by lia. exact D.
    + intros (n & r' & H & D). destruct n as [|n].
      * cbn in H. injection H as <-. rewrite Nat.add_0_r in D. destruct D as [->| ->]; auto.
      * right. right. exists n, r'. split; [exact H|]. replace (S k + n)%nat with (k + S n)%nat by lia. exact D.
Qed.
Lemma edges_length rs k : length (edges_of k rs) = (2 * length rs)%nat.
Proof. revert k. induction rs as [|r t IH]; intros k; cbn; [reflexivity|]. rewrite IH. lia. Qed.
Lemma div2_even n : Nat.div2 (2 * n) = n. Proof. apply Nat.div2_double. Qed.
Lemma div2_odd n : Nat.div2 (2 * n + 1) = n. Proof. rewrite Nat.add_1_r. apply Nat.div2_succ_double. Qed.

Lemma sorted_edges_In rs i : In i (sorted_edges rs) <->
  exists n r, nth_error rs n = Some r /\ (i = mkItem (2 * n) r (rx0 r) \/ i = mkItem (2 * n + 1) r (rx1 r)).
Proof. unfold sorted_edges. rewrite (sort_key1_In it_x). apply (edges_of_In rs 0). Qed.
Lemma sorted_edges_owner rs i : In i (sorted_edges rs) -> nth_error rs (owner i) = Some (it_rect i).
Proof.
  intros H. apply sorted_edges_In in H. destruct H as (n & r & H & [->| ->]); unfold owner; cbn [it_idx it_rect];
    rewrite ?div2_even, ?div2_odd; exact H.
Qed.

Lemma report_sound rs p : (forall r, In r rs -> rx0 r <= rx1 r) -> In p (report rs) ->
  exists a b, nth_error rs (fst p) = Some a /\ nth_error rs (snd p) = Some b /\ touching a b.
Proof.
  intros V H. unfold report in H. apply solve_sound in H.
  - destruct H as (a & b & Ha & Hb & -> & T). exists (it_rect a), (it_rect b). cbn [fst snd].
    split; [apply sorted_edges_owner; exact Ha|]. split; [apply sorted_edges_owner; exact Hb|exact T].
  - apply (sort_key1_sorted it_x).
  - intros i Hi. pose proof (sorted_edges_owner rs i Hi) as Ho. apply nth_error_In in Ho.
    apply sorted_edges_In in Hi. destruct Hi as (n & r & _ & [->| ->]); (split; [cbn; auto|apply V; exact Ho]).
Qed.

(** Whatever the boxes: what is reported shares heights. *)
Lemma solve_heights fuel : forall v p, In p (solve fuel v) -> exists a b, In a v /\ In b v /\ p = (owner a, owner b) /\
  ((y0 a <= y0 b /\ y0 b < y1 a) \/ (y0 b <= y0 a /\ y0 a < y1 b)).
Proof.
  induction fuel as [|fuel IH]; intros v p H; [destruct H|].
  cbn [solve] in H. destruct (Nat.ltb (length v) 2); [destruct H|]. cbv zeta in H. set (c := Nat.div2 (length v)) in *.
  assert (HL : forall i, In i (firstn c v) -> In i v) by (intros i Hi; rewrite <- (firstn_skipn c v); apply in_or_app; auto).
  assert (HR : forall i, In i (skipn c v) -> In i v) by (intros i Hi; rewrite <- (firstn_skipn c v); apply in_or_app; auto).
  assert (St : forall s1 s2, (forall i, In i s1 -> In i v) -> (forall i, In i s2 -> In i v) -> In p (stab s1 s2) -> exists a b, In a v /\ In b v /\ p = (owner a, owner b) /\
    ((y0 a <= y0 b /\ y0 b < y1 a) \/ (y0 b <= y0 a /\ y0 a < y1 b))).
  { intros s1 s2 A B K. apply stab_sound in K. destruct K as (a & b & Ha & Hb & E & Y). exists a, b. auto. }
  assert (Fi : forall (f : item -> bool) l, (forall i, In i l -> In i v) -> forall i, In i (filter f l) -> In i v) by (intros f l K i Hi; apply K; apply filter_In in Hi; apply Hi).
  repeat (apply in_app_or in H; destruct H as [H|H]); try (eapply St; [| |exact H]; apply Fi; assumption).
  - destruct (IH _ _ H) as (a & b & Ha & Hb & R). exists a, b. auto.
  - destruct (IH _ _ H) as (a & b & Ha & Hb & R). exists a, b. auto.
Qed.
Lemma report_heights rs p : In p (report rs) ->
  exists a b, nth_error rs (fst p) = Some a /\ nth_error rs (snd p) = Some b /\ ((ry0 a <= ry0 b /\ ry0 b < ry1 a) \/ (ry0 b <= ry0 a /\ ry0 a < ry1 b)).
Proof.
  intros H. unfold report in H. apply solve_heights in H. destruct H as (a & b & Ha & Hb & -> & Y). exists (it_rect a), (it_rect b). cbn [fst snd].
  split; [apply sorted_edges_owner; exact Ha|]. split; [apply sorted_edges_owner; exact Hb|exact Y].
Qed.

Lemma report_complete rs i j a b : (forall r, In r rs -> rx0 r < rx1 r) ->
  i <> j -> nth_error rs i = Some a -> nth_error rs j = Some b -> overlap_open a b ->
  (rx0 b <= rx0 a -> clear_left rs i a) -> (rx0 a <= rx0 b -> clear_left rs j b) ->
  In (i, j) (report rs) \/ In (j, i) (report rs).
Proof.
  intros V Hij Ha Hb Hov Ci Cj. unfold report.
  set (full := sorted_edges rs).
  assert (Sf : sorted_by it_x full) by apply (sort_key1_sorted it_x).
  assert (Ein : forall n r, nth_error rs n = Some r ->
            edges_in full (mkItem (2 * n) r (rx0 r)) (mkItem (2 * n + 1) r (rx1 r)) n r).
  { intros n r H. unfold edges_in. cbn [it_rect it_x].
    split; [apply sorted_edges_In; exists n, r; auto|]. split; [apply sorted_edges_In; exists n, r; auto|].
    do 4 (split; [reflexivity|]). split; [apply div2_even|]. split; [apply div2_odd|].
    intros it Hit Ho. apply sorted_edges_In in Hit. destruct Hit as (m & r' & Hm & [->| ->]); unfold owner in Ho; cbn [it_idx] in Ho;
      rewrite ?div2_even, ?div2_odd in Ho; subst m; rewrite H in Hm; injection Hm as <-; auto. }
  assert (Dist : forall n r, nth_error rs n = Some r -> clear_left rs n r -> clear_edge full n r).
  { intros n r H [D|D].
    - left. intros it Hit Hx. pose proof (sorted_edges_owner rs it Hit) as Ho.
      destruct (Nat.eq_dec (owner it) n) as [E|E]; [exact E|exfalso].
      destruct (D (owner it) (it_rect it)) as [D1 D2]; auto.
      apply sorted_edges_In in Hit. destruct Hit as (m & r' & _ & [->| ->]); cbn [it_rect it_x] in *; [apply D1|apply D2]; lra.
    - right. intros it Hit. apply sorted_edges_In in Hit. destruct Hit as (m & r' & Hm & Hit). apply nth_error_In in Hm.
      pose proof (D r' Hm). pose proof (V r' Hm). destruct Hit as [->| ->]; cbn [it_x]; lra. }
  apply (solve_complete full Sf i j a b (mkItem (2 * i) a (rx0 a)) (mkItem (2 * i + 1) a (rx1 a))
           (mkItem (2 * j) b (rx0 b)) (mkItem (2 * j + 1) b (rx1 b)) (Ein i a Ha) (Ein j b Hb)
           (V a (nth_error_In _ _ Ha)) (V b (nth_error_In _ _ Hb)) Hov (fun h => Dist i a Ha (Ci h)) (fun h => Dist j b Hb (Cj h)) Hij
           (2 * length rs)%nat [] full []).
  - unfold full, sorted_edges, sort_key. rewrite py_sort_length, edges_length. lia.
  - rewrite app_nil_r. reflexivity.
  - exists (mkItem (2 * i) a (rx0 a)). split; [apply (Ein i a Ha)|apply div2_even].
  - exists (mkItem (2 * j) b (rx0 b)). split; [apply (Ein j b Hb)|apply div2_even].
Qed.

(* ------------------------------------------------------------------ *)
(** * Groups *)
Lemma links_gen ps : forall g, (forall ij, In ij ps -> (fst ij < length g)%nat /\ (snd ij < length g)%nat) ->
  let g' := fold_left (fun g ij => link (fst ij) (snd ij) g) ps g in
  length g' = length g /\
  forall a b, edge g' a b <-> edge g a b \/ exists ij, In ij ps /\ ((a = fst ij /\ b = snd ij) \/ (a = snd ij /\ b = fst ij)).
Proof.
  induction ps as [|ij t IH]; intros g H; cbn [fold_left].
  - split; [reflexivity|]. intros a b. split; [auto|]. intros [E|(ij & [] & _)]. exact E.
  - destruct (H ij (or_introl eq_refl)) as [L1 L2].
    destruct (IH (link (fst ij) (snd ij) g)) as (P1 & P2).
    { intros x Hx. rewrite link_length. apply H. right. exact Hx. }
    cbv zeta in *. split; [rewrite P1; apply link_length|]. intros a b. rewrite P2, link_edge by assumption. split.
    + intros [[E|E]|(x & Hx & Ex)]; [auto| |].
      * right. exists ij. split; [left; reflexivity|exact E].
      * right. exists x. split; [right; exact Hx|exact Ex].
    + intros [E|(x & [<-|Hx] & Ex)]; [auto|left; right; exact Ex|right; exists x; auto].
Qed.

Section Groups.
Variable order : list nat -> list nat.
Hypothesis order_perm : forall l, Permutation l (order l).
Variables (dx dy : Q) (rs : list rect).
Let ws := map (widen dx dy) rs.
Hypothesis Hvalid : forall r, In r ws -> rx0 r <= rx1 r.

Lemma connectivity_edges a b : edge (connectivity_graph dx dy rs) a b <-> In (a, b) (report ws) \/ In (b, a) (report ws).
Proof.
  unfold connectivity_graph. fold ws.
  destruct (links_gen (report ws) (repeat [] (length rs))) as [_ H].
  { intros [i j] Hij. rewrite repeat_length. destruct (report_sound ws (i, j) Hvalid Hij) as (r1 & r2 & H1 & H2 & _).
    cbn [fst snd] in *. replace (length rs) with (length ws) by (unfold ws; apply map_length).
    split; apply nth_error_Some; congruence. }
  cbv zeta in H. rewrite H. split.
  - intros [(ns & E & Hn)|([i j] & Hij & [[-> ->]|[-> ->]])].
    + apply nth_error_In in E. apply repeat_spec in E. subst. destruct Hn.
    + left. exact Hij.
    + right. exact Hij.
  - intros [E|E]; right; [exists (a, b)|exists (b, a)]; auto.
Qed.
Lemma connectivity_length : length (connectivity_graph dx dy rs) = length rs.
Proof.
  unfold connectivity_graph. fold ws. destruct (links_gen (report ws) (repeat [] (length rs))) as [H _].
  { intros [i j] Hij. rewrite repeat_length. destruct (report_sound ws (i, j) Hvalid Hij) as (r1 & r2 & H1 & H2 & _).
    cbn [fst snd] in *. replace (length rs) with (length ws) by (unfold ws; apply map_length).
    split; apply nth_error_Some; congruence. }
  cbv zeta in H. rewrite repeat_length in H. exact H.
Qed.

Lemma groups_general :
  exists gs, group_by_connectivity order dx dy rs = Some gs /\
    NoDup (concat gs) /\ (forall i, (i < length rs)%nat <-> In i (concat gs)) /\
    (forall grp i j, In grp gs -> In i grp ->
       (In j grp <-> clos_refl_trans nat (fun a b => In (a, b) (report ws) \/ In (b, a) (report ws)) i j)).
Proof.
  set (g := map order (connectivity_graph dx dy rs)).
  assert (Hlen : length g = length rs) by (unfold g; rewrite map_length; apply connectivity_length).
  assert (He : forall a b, edge g a b <-> In (a, b) (report ws) \/ In (b, a) (report ws)).
  { intros a b. unfold g. rewrite (edge_order order order_perm). apply connectivity_edges. }
  assert (Hr : in_range g).
  { intros a b H. apply He in H. rewrite Hlen. replace (length rs) with (length ws) by (unfold ws; apply map_length).
    destruct H as [H|H]; destruct (report_sound ws _ Hvalid H) as (r1 & r2 & H1 & H2 & _); cbn [fst snd] in *; apply nth_error_Some; congruence. }
  assert (Hs : symmetric_graph g) by (intros a b H; apply He; apply He in H; tauto).
  destruct (graph_bfs_components g Hr Hs) as (gs & G1 & G2 & G3 & G4 & _).
  exists (map order gs). unfold group_by_connectivity. fold g. rewrite G1. split; [reflexivity|].
  pose proof (Permutation_concat_map order order_perm gs) as HP.
  split; [eapply Permutation_NoDup; [exact HP|exact G2]|]. split.
  - intros i. rewrite <- Hlen, G3. split; intros H.
    + eapply Permutation_in; [exact HP|exact H].
    + eapply Permutation_in; [apply Permutation_sym; exact HP|exact H].
  - intros grp i j Hg Hi. apply in_map_iff in Hg. destruct Hg as (x & <- & Hx).
    assert (Hi' : In i x) by (eapply Permutation_in; [apply Permutation_sym; apply order_perm|exact Hi]).
    rewrite <- (reach_iff g _ He i j), <- (G4 x i j Hx Hi'). split; intros H.
    + eapply Permutation_in; [apply Permutation_sym; apply order_perm|exact H].
    + eapply Permutation_in; [apply order_perm|exact H].
Qed.
Lemma groups_nonempty gs : group_by_connectivity order dx dy rs = Some gs -> forall grp, In grp gs -> grp <> [].
Proof.
  set (g := map order (connectivity_graph dx dy rs)).
  assert (Hlen : length g = length rs) by (unfold g; rewrite map_length; apply connectivity_length).
  assert (He : forall a b, edge g a b <-> In (a, b) (report ws) \/ In (b, a) (report ws)).
  { intros a b. unfold g. rewrite (edge_order order order_perm). apply connectivity_edges. }
  assert (Hr : in_range g).
  { intros a b H. apply He in H. rewrite Hlen. replace (length rs) with (length ws) by (unfold ws; apply map_length).
    destruct H as [H|H]; destruct (report_sound ws _ Hvalid H) as (r1 & r2 & H1 & H2 & _); cbn [fst snd] in *; apply nth_error_Some; congruence. }
  assert (Hs : symmetric_graph g) by (intros a b H; apply He; apply He in H; tauto).
  destruct (graph_bfs_components g Hr Hs) as (gs' & G1 & G2 & G3 & G4 & G5).
  unfold group_by_connectivity. fold g. rewrite G1. cbn [option_map]. intros E. injection E as <-. intros grp Hg. apply in_map_iff in Hg. destruct Hg as (x & <- & Hx).
  intros Z. destruct (proj1 G5 x Hx) as (h & t & -> & _). assert (P : Permutation (h :: t) []) by (rewrite <- Z; apply order_perm). apply Permutation_sym, Permutation_nil in P. discriminate.
Qed.
End Groups.

Lemma touching_overlap a b : ry0 a < ry1 a -> ry0 b < ry1 b -> touching a b -> overlap_x_closed a b.
Proof. intros H1 H2 (X1 & X2 & [[Y1 Y2]|[Y1 Y2]]); unfold overlap_x_closed; repeat split; lra. Qed.

Lemma clos_mono {A} (R S : A -> A -> Prop) : (forall x y, R x y -> S x y) ->
  forall x y, clos_refl_trans A R x y -> clos_refl_trans A S x y.
Proof.
  intros H x y C. induction C as [x y C|x|x y z _ I1 _ I2]; [apply rt_step; apply H; exact C|apply rt_refl|eapply rt_trans; eassumption].
Qed.

(** Final statements at the level of the user. *)
Lemma connectivity_sound order dx dy rs : (forall l, Permutation l (order l)) ->
  (forall r, In r (map (widen dx dy) rs) -> proper r) ->
  exists gs, group_by_connectivity order dx dy rs = Some gs /\
    NoDup (concat gs) /\ (forall i, (i < length rs)%nat <-> In i (concat gs)) /\
    (forall grp i j, In grp gs -> In i grp -> In j grp ->
       clos_refl_trans nat (overlapping overlap_x_closed (map (widen dx dy) rs)) i j).
Proof.
  intros Ho Hp. destruct (groups_general order Ho dx dy rs) as (gs & G1 & G2 & G3 & G4).
  { intros r Hr. destruct (Hp r Hr). lra. }
  exists gs. split; [exact G1|]. split; [exact G2|]. split; [exact G3|]. intros grp i j Hg Hi Hj.
  apply (G4 grp i j Hg Hi) in Hj. revert Hj. apply clos_mono.
  assert (V : forall r, In r (map (widen dx dy) rs) -> rx0 r <= rx1 r) by (intros r Hr; destruct (Hp r Hr); lra).
  assert (K : forall a b, In (a, b) (report (map (widen dx dy) rs)) -> overlapping overlap_x_closed (map (widen dx dy) rs) a b).
  { intros a b H. destruct (report_sound _ _ V H) as (r1 & r2 & H1 & H2 & T). cbn [fst snd] in *.
    exists r1, r2. split; [exact H1|]. split; [exact H2|].
    apply touching_overlap; [apply (Hp r1), nth_error_In with a; exact H1|apply (Hp r2), nth_error_In with b; exact H2|exact T]. }
  intros a b [H|H]; [apply K; exact H|]. destruct (K b a H) as (r1 & r2 & H1 & H2 & (T1 & T2 & T3 & T4)).
  exists r2, r1. split; [exact H2|]. split; [exact H1|]. unfold overlap_x_closed. auto.
Qed.
Lemma connectivity_complete order dx dy rs : (forall l, Permutation l (order l)) ->
  (forall r, In r (map (widen dx dy) rs) -> proper r) ->
  exists gs, group_by_connectivity order dx dy rs = Some gs /\
    (forall i j, (i < length rs)%nat -> clos_refl_trans nat (clearly_overlapping (map (widen dx dy) rs)) i j ->
       exists grp, In grp gs /\ In i grp /\ In j grp).
Proof.
  intros Ho Hp. destruct (groups_general order Ho dx dy rs) as (gs & G1 & G2 & G3 & G4).
  { intros r Hr. destruct (Hp r Hr). lra. }
  exists gs. split; [exact G1|]. intros i j Hi Hc.
  apply G3 in Hi. apply in_concat in Hi. destruct Hi as (grp & Hg & Hi). exists grp. split; [exact Hg|]. split; [exact Hi|].
  apply (G4 grp i j Hg Hi). clear Hi Hg grp.
  induction Hc as [x y (r1 & r2 & H1 & H2 & T & C1 & C2)|x|x y z _ I1 _ I2]; [|apply rt_refl|eapply rt_trans; eassumption].
  destruct (Nat.eq_dec x y) as [->|Hne]; [apply rt_refl|].
  apply rt_step. eapply report_complete; eauto. intros r Hr. destruct (Hp r Hr). assumption.
Qed.
Lemma report_complete_distinct rs i j a b : (forall r, In r rs -> rx0 r < rx1 r) -> left_edges_distinct rs ->
  i <> j -> nth_error rs i = Some a -> nth_error rs j = Some b -> overlap_open a b -> In (i, j) (report rs) \/ In (j, i) (report rs).
Proof.
  intros V D Hij Ha Hb H. apply (report_complete rs i j a b V Hij Ha Hb H); intros _; left.
  - intros k c Hk Hc. exact (D i k a c (not_eq_sym Hk) Ha Hc).
  - intros k c Hk Hc. exact (D j k b c (not_eq_sym Hk) Hb Hc).
Qed.
