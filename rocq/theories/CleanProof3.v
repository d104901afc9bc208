(** Why an image floats; blocks left are below each other. *)
From Verif Require Import GeomProof AssignSpec AssignProof InterSpec InterProof GraphSpec GraphProof BorderProof3 TextProof PySort CleanSpec CleanProof CleanProof2.
From Coq Require Import Lia Lqa Permutation Relations.
Open Scope Q_scope.

Lemma two_positions {A} (L : list A) : forall i j a b, i <> j -> nth_error L i = Some a -> nth_error L j = Some b -> exists rest, Permutation L (a :: b :: rest).
Proof.
  assert (G : forall i j a b, (i < j)%nat -> nth_error L i = Some a -> nth_error L j = Some b -> exists rest, Permutation L (a :: b :: rest)).
  { intros i j a b Hij Ea Eb. apply nth_error_split in Ea. destruct Ea as (l1 & l2 & -> & Hl). rewrite nth_error_app2 in Eb by lia.
    replace (j - length l1)%nat with (S (j - length l1 - 1)) in Eb by lia. cbn [nth_error] in Eb. apply nth_error_In in Eb. apply in_split in Eb. destruct Eb as (u & v & ->).
    exists (l1 ++ u ++ v). apply Permutation_sym, Permutation_cons_app. rewrite app_assoc. eapply Permutation_trans; [apply Permutation_middle|]. rewrite <- app_assoc. apply Permutation_refl. }
  intros i j a b N Ea Eb. destruct (Nat.lt_gt_cases i j) as [Z _]. destruct (Z N) as [H|H]; [eapply G; eassumption|].
  destruct (G j i b a H Eb Ea) as (r & P). exists r. eapply Permutation_trans; [exact P|apply perm_swap].
Qed.
Lemma positions_two {A} (L : list A) a b rest : Permutation L (a :: b :: rest) -> exists i j, i <> j /\ nth_error L i = Some a /\ nth_error L j = Some b.
Proof.
  intros P. apply Permutation_sym in P.
  assert (Ha : In a L) by (eapply Permutation_in; [exact P|left; reflexivity]). apply in_split in Ha. destruct Ha as (l1 & l2 & ->).
  assert (P' : Permutation (b :: rest) (l1 ++ l2)) by (apply Permutation_cons_app_inv with a; exact P).
  assert (Hb : In b (l1 ++ l2)) by (eapply Permutation_in; [exact P'|left; reflexivity]). apply in_app_or in Hb.
  destruct Hb as [Hb|Hb]; apply In_nth_error in Hb; destruct Hb as (k & Hk).
  - assert (k < length l1)%nat by (apply nth_error_Some; congruence). exists (length l1), k. split; [lia|]. split; [rewrite nth_error_app2, Nat.sub_diag by lia; reflexivity|]. rewrite nth_error_app1 by assumption. exact Hk.
  - exists (length l1), (length l1 + S k)%nat. split; [lia|]. split; [rewrite nth_error_app2, Nat.sub_diag by lia; reflexivity|]. rewrite nth_error_app2 by lia. replace (length l1 + S k - length l1)%nat with (S k) by lia. exact Hk.
Qed.
Lemma numbered_lines bs : (forall b l, In b bs -> In l (b_lines b) -> ln_bool l = true) -> forall k, map snd (numbered k bs) = lines_in bs.
Proof.
  intros H. induction bs as [|b t IH]; intros k; [reflexivity|]. cbn [numbered]. rewrite map_app, map_map. cbn [snd]. rewrite map_id, IH by (intros c l Hc; apply H; right; exact Hc).
  rewrite filter_all by (intros l Hl; eapply H; [left; reflexivity|exact Hl]). reflexivity.
Qed.
Definition shrunk (gap : Q) (l : line) : rect := widen (- gap) (- gap) (ln_bbox l).
Lemma shrunk_all gap (ls : list (nat * line)) : map (widen (- gap) (- gap)) (map (fun p => ln_bbox (snd p)) ls) = map (shrunk gap) (map snd ls).
Proof. rewrite !map_map. reflexivity. Qed.
(** Which blocks float. *)
Section Why.
Variables (order : list nat -> list nat) (gap : Q) (bs : list tblock) (gs : list (list nat)).
Hypothesis Ho : forall l, Permutation l (order l).
Hypothesis Hb : forall b l, In b bs -> In l (b_lines b) -> ln_bool l = true.
Let ls := numbered 0 bs.
Hypothesis Hg : group_by_connectivity order (- gap) (- gap) (map (fun p => ln_bbox (snd p)) ls) = Some gs.
Let M := met ls bs (concat (filter (fun g => Nat.ltb 1 (List.length g)) gs)).
Let rep := report (map (shrunk gap) (lines_in bs)).
Let linked a b := In (a, b) rep \/ In (b, a) rep.
Lemma groups_here : NoDup (concat gs) /\ (forall i, (i < length ls)%nat <-> In i (concat gs)) /\
  (forall grp i j, In grp gs -> In i grp -> (In j grp <-> clos_refl_trans nat linked i j)).
Proof.
  destruct (groups_partition order Ho (- gap) (- gap) (map (fun p => ln_bbox (snd p)) ls)) as (gs' & G1 & G2 & G3 & G4).
  rewrite Hg in G1. injection G1 as <-. split; [exact G2|]. rewrite map_length in G3. split; [exact G3|].
  rewrite shrunk_all in G4. unfold ls in G4. rewrite (numbered_lines bs Hb 0) in G4. exact G4.
Qed.
Lemma big_group i : In i (concat (filter (fun g => Nat.ltb 1 (List.length g)) gs)) <-> (i < length ls)%nat /\ exists j, i <> j /\ clos_refl_trans nat linked i j.
Proof.
  destruct groups_here as (G2 & G3 & G4). rewrite in_concat. split.
  - intros (g & Hgf & Hi). apply filter_In in Hgf. destruct Hgf as [Ig L]. apply Nat.ltb_lt in L.
    split; [apply G3; apply in_concat; exists g; auto|].
    assert (Ng : NoDup g). { clear - G2 Ig. induction gs as [|x t IH]; [destruct Ig|]. cbn [concat] in G2. destruct Ig as [->|Ig].
      - clear - G2. induction g as [|y g IH]; [constructor|]. cbn in G2. inversion G2 as [|? ? A B]. subst. constructor; [intros K; apply A; apply in_or_app; left; exact K|auto].
      - apply IH; [|exact Ig]. clear - G2. induction x as [|y x IH]; [exact G2|inversion G2; auto]. }
    assert (Hj : exists j, In j g /\ i <> j).
    { destruct g as [|a [|b r]]; [cbn in L; lia|cbn in L; lia|]. inversion Ng as [|? ? A B]. subst. destruct (Nat.eq_dec i a) as [->|Na].
      - exists b. split; [right; left; reflexivity|]. intros ->. apply A. left. reflexivity.
      - exists a. split; [left; reflexivity|exact Na]. }
    destruct Hj as (j & Hj & Nij). exists j. split; [exact Nij|]. apply (G4 g i j Ig Hi). exact Hj.
  - intros (Hi & j & Nij & C). apply G3 in Hi. apply in_concat in Hi. destruct Hi as (g & Ig & Hi). exists g. split; [|exact Hi]. apply filter_In. split; [exact Ig|].
    apply Nat.ltb_lt. assert (Hj : In j g) by (apply (G4 g i j Ig Hi); exact C). destruct g as [|a [|b r]]; [destruct Hi| |cbn; lia]. destruct Hi as [<-|[]], Hj as [<-|[]]. congruence.
Qed.
Lemma first_step i j : i <> j -> clos_refl_trans nat linked i j -> exists k, k <> i /\ linked i k.
Proof.
  intros N C. apply clos_rt_rt1n in C. revert N. induction C as [x|x y z H C IH]; intros N; [congruence|].
  destruct (Nat.eq_dec x y) as [->|E]; [apply IH; exact N|]. exists y. split; [congruence|exact H].
Qed.
(** A floating block has a line that is linked to another line. *)
Lemma floats_linked b l : (exists k, In k M /\ nth_error bs k = Some b) -> b_lines b = [l] -> exists i j l', i <> j /\ linked i j /\ nth_error (lines_in bs) i = Some l /\ nth_error (lines_in bs) j = Some l'.
Proof.
  intros (k & Hk & E) El. unfold M in Hk. apply met_In in Hk. destruct Hk as (i & l0 & b0 & Hi & En & Eb & Im). rewrite E in Eb. injection Eb as <-.
  apply big_group in Hi. destruct Hi as (Li & j & Nij & C). destruct (first_step i j Nij C) as (m & Nm & Lk). exists i, m.
  assert (El0 : nth_error (lines_in bs) i = Some l0). { rewrite <- (numbered_lines bs Hb 0). fold ls. rewrite nth_error_map, En. reflexivity. }
  assert (l0 = l) as ->.
  { apply nth_error_In in En. apply numbered_In in En. destruct En as (j0 & b1 & X & Y & Z & _). cbn [snd fst] in *. injection X as X. cbn in X. subst j0. rewrite E in Y. injection Y as <-. rewrite El in Z. destruct Z as [<-|[]]. reflexivity. }
  assert (R : (m < length (lines_in bs))%nat) by (destruct Lk as [R|R]; apply report_range in R; rewrite map_length in R; tauto).
  destruct (nth_error (lines_in bs) m) as [l'|] eqn:El'; [|apply nth_error_None in El'; lia]. exists l'. split; [congruence|]. auto.
Qed.
Lemma linked_floats b l i j k : nth_error bs k = Some b -> b_img b = true -> nth_error ls i = Some (k, l) -> i <> j -> linked i j -> In k M.
Proof.
  intros E Im En Nij Lk. unfold M. apply met_In. exists i, l, b. split; [|auto]. apply big_group. split; [apply nth_error_Some; congruence|]. exists j. split; [exact Nij|apply rt_step; exact Lk].
Qed.
End Why.

(** * Chains of overlapping intervals *)
Section Intervals.
Variables (A : Type) (f : A -> A -> bool) (lo hi : A -> Q) (ok : A -> bool) (l : list A) (order : list nat -> list nat).
Hypothesis Ho : forall l, Permutation l (order l).
Hypothesis Hf : forall a b, In a l -> In b l -> (f a b = true <-> ok a = true /\ ok b = true /\ lo a <= hi b /\ lo b <= hi a).
Hypothesis Hv : forall a, In a l -> ok a = true -> lo a <= hi a.
Definition above (a b : A) : Prop := hi a < lo b.
Lemma step_facts i j a b : pair_holds f l i j -> nth_error l i = Some a -> nth_error l j = Some b -> ok a = true /\ ok b = true /\ lo a <= hi b /\ lo b <= hi a.
Proof.
  intros H Ea Eb. destruct H as [(_ & x & y & X & Y & F)|(_ & x & y & X & Y & F)]; rewrite Ea in *; rewrite Eb in *; injection X as <-; injection Y as <-;
    apply Hf in F; try (eapply nth_error_In; eassumption); tauto.
Qed.
Lemma unchained i j a b : i <> j -> ~ chained f l i j -> nth_error l i = Some a -> nth_error l j = Some b -> ok a = true -> ok b = true -> above a b \/ above b a.
Proof.
  intros N H Ea Eb Oa Ob. unfold above. destruct (Qlt_le_dec (hi a) (lo b)) as [|L1]; [left; assumption|]. destruct (Qlt_le_dec (hi b) (lo a)) as [|L2]; [right; assumption|].
  exfalso. apply H. apply rt_step. pose proof (nth_error_In _ _ Ea) as Ia. pose proof (nth_error_In _ _ Eb) as Ib.
  destruct (Nat.lt_gt_cases i j) as [Z _]. destruct (Z N) as [K|K]; [left|right]; (split; [exact K|]); [exists a, b|exists b, a]; (split; [assumption|split; [assumption|]]); apply Hf; auto.
Qed.
Lemma chain_sym i j : chained f l i j -> chained f l j i.
Proof.
  intros H. induction H as [x y H|x|x y z _ IH1 _ IH2]; [apply rt_step|apply rt_refl|eapply rt_trans; eassumption]. destruct H as [H|H]; [right|left]; exact H.
Qed.
Lemma same_side j b : nth_error l j = Some b -> ok b = true -> forall i i', chained f l i i' -> ~ chained f l i j ->
  forall a a', nth_error l i = Some a -> nth_error l i' = Some a' -> ok a = true ->
  (above a b -> above a' b) /\ (above b a -> above b a').
Proof.
  intros Ej Ob i i' H. apply clos_rt_rt1n in H. induction H as [x|x y z H1 H2 IH]; intros N a a' Ea Ea' Oa.
  - rewrite Ea in Ea'. injection Ea' as <-. tauto.
  - assert (C : chained f l x y) by (apply rt_step; exact H1).
    assert (Ny : ~ chained f l y j) by (intros K; apply N; eapply rt_trans; eassumption).
    assert (exists c, nth_error l y = Some c) as (c & Ec) by (destruct H1 as [(_ & u & v & A1 & B1 & _)|(_ & u & v & A1 & B1 & _)]; eauto).
    destruct (step_facts _ _ _ _ H1 Ea Ec) as (_ & Oc & O1 & O2).
    destruct (IH Ny c a' Ec Ea' Oc) as [I1 I2].
    assert (Nyj : y <> j) by (intros ->; apply Ny, rt_refl).
    pose proof (unchained y j c b Nyj Ny Ec Ej Oc Ob) as S. pose proof (Hv b (nth_error_In _ _ Ej) Ob).
    unfold above in *. split; intros K; [apply I1|apply I2]; destruct S; try lra.
Qed.
Definition all_above (g h : list A) : Prop := forall a b, In a g -> In b h -> ok a = true -> ok b = true -> above a b.
Lemma groups_stacked : exists gs, group f order l = Some gs /\ Permutation (concat gs) l /\ pairwise (fun g h => all_above g h \/ all_above h g) gs.
Proof.
  destruct (group_perm f order Ho l) as (gs & Eg & Pg). exists gs. split; [exact Eg|]. split; [exact Pg|]. clear Pg.
  unfold group in Eg. destruct (group_indexes_spec f order Ho l) as (gi & E & ND & Rg & NE & Cl). rewrite E in Eg. injection Eg as <-.
  apply (pairwise_disjoint (fun _ _ => True)); [exact ND|]. intros g1 g2 I1 I2 D.
  assert (X : forall i j, In i g1 -> In j g2 -> ~ chained f l i j).
  { intros i j Ii Ij K. apply (D j); [|exact Ij]. apply (Cl g1 i j I1 Ii). exact K. }
  assert (G : forall g a, In a (flat_map (item_at l) g) -> exists i, In i g /\ nth_error l i = Some a).
  { intros g a Ha. apply in_flat_map in Ha. destruct Ha as (i & Hi & Ha). exists i. split; [exact Hi|]. unfold item_at in Ha. destruct (nth_error l i); [destruct Ha as [->|[]]; reflexivity|destruct Ha]. }
  destruct (existsb ok (flat_map (item_at l) g1)) eqn:E1.
  2: { left. intros a b Ha Hb Oa. exfalso. assert (existsb ok (flat_map (item_at l) g1) = true) by (apply existsb_exists; eauto). congruence. }
  destruct (existsb ok (flat_map (item_at l) g2)) eqn:E2.
  2: { left. intros a b Ha Hb _ Ob. exfalso. assert (existsb ok (flat_map (item_at l) g2) = true) by (apply existsb_exists; eauto). congruence. }
  apply existsb_exists in E1. destruct E1 as (a0 & Ha0 & Oa0). apply existsb_exists in E2. destruct E2 as (b0 & Hb0 & Ob0).
  destruct (G _ _ Ha0) as (i0 & Hi0 & Ea0). destruct (G _ _ Hb0) as (j0 & Hj0 & Eb0).
  assert (N0 : ~ chained f l i0 j0) by (apply X; assumption).
  assert (Nij : i0 <> j0) by (intros ->; apply N0, rt_refl).
  assert (H : forall a b, In a (flat_map (item_at l) g1) -> In b (flat_map (item_at l) g2) -> ok a = true -> ok b = true -> (above a0 b0 -> above a b) /\ (above b0 a0 -> above b a)).
  { intros a b Ha Hb Oa Ob. destruct (G _ _ Ha) as (i & Hi & Ea). destruct (G _ _ Hb) as (j & Hj & Eb).
    assert (C1 : chained f l i0 i) by (apply (Cl g1 i0 i I1 Hi0); exact Hi). assert (C2 : chained f l j0 j) by (apply (Cl g2 j0 j I2 Hj0); exact Hj).
    destruct (same_side j0 b0 Eb0 Ob0 i0 i C1 N0 a0 a Ea0 Ea Oa0) as [S1 S2].
    assert (N1 : ~ chained f l j0 i) by (intros K; apply (X i j0 Hi Hj0); apply chain_sym; exact K).
    destruct (same_side i a Ea Oa j0 j C2 N1 b0 b Eb0 Eb Ob0) as [T1 T2]. split; auto. }
  destruct (unchained i0 j0 a0 b0 Nij N0 Ea0 Eb0 Oa0 Ob0) as [K|K]; [left|right].
  - intros a b Ha Hb Oa Ob. exact (proj1 (H a b Ha Hb Oa Ob) K).
  - intros b a Hb Ha Ob Oa. exact (proj2 (H a b Ha Hb Oa Ob) K).
Qed.
End Intervals.

(** * The blocks left are stacked *)
Section JoinInv.
Variables (thr merging : Q) (P : line -> Prop) (S : span -> Prop).
Hypothesis Padd : forall l s, P l -> S s -> P (line_add l s).
Definition fine (l : line) : Prop := P l /\ forall s, In s (ln_spans l) -> S s.
Lemma add_all_inv ss : forall l, P l -> (forall s, In s ss -> S s) -> P (line_add_all l ss).
Proof.
  induction ss as [|s t IH]; intros l H1 H2; [exact H1|]. unfold line_add_all in *. cbn [fold_left]. apply IH; [apply Padd; [exact H1|apply H2; left; reflexivity]|intros x Hx; apply H2; right; exact Hx].
Qed.
Lemma merged_inv cand : (forall l, In l cand -> fine l) -> forall r, In r (merged_line cand) -> P r.
Proof.
  destruct cand as [|l t]; intros H r Hr; [destruct Hr|]. destruct Hr as [<-|[]]. apply add_all_inv; [apply H; left; reflexivity|].
  intros s Hs. apply in_concat in Hs. destruct Hs as (ss & Hss & Hs). apply in_map_iff in Hss. destruct Hss as (x & <- & Hx). destruct (H x (or_intror Hx)) as [_ K]. apply K. exact Hs.
Qed.
Lemma loop_inv ls : forall pre cand out, (forall l, In l ls -> fine l) -> (forall l, In l cand -> fine l) -> (forall l, In l out -> P l) ->
  forall r, In r (join_loop thr merging pre ls cand out) -> P r.
Proof.
  assert (KM : forall cand, (forall l, In l cand -> fine l) -> forall r, In r (keep_lines (merged_line cand)) -> P r) by (intros cand H r Hr; apply filter_In in Hr; eapply merged_inv; [exact H|apply Hr]).
  assert (KC : forall cand, (forall l, In l cand -> fine l) -> forall r, In r (keep_lines cand) -> P r) by (intros cand H r Hr; apply filter_In in Hr; apply H; apply Hr).
  induction ls as [|l t IH]; intros pre cand out H1 H2 H3 r Hr; cbn [join_loop] in Hr.
  - apply in_app_or in Hr. destruct Hr as [Hr|Hr]; [auto|exact (KM cand H2 r Hr)].
  - assert (Hl : fine l) by (apply H1; left; reflexivity). assert (Ht : forall x, In x t -> fine x) by (intros x Hx; apply H1; right; exact Hx).
    destruct (match get_main_bbox _ _ _ with Some m => rect_bool m | None => false end); [exact (IH l cand out Ht H2 H3 r Hr)|].
    destruct (negb (same_row l pre) || _).
    + eapply IH; [exact Ht| | |exact Hr]; [intros x []|]. intros x Hx. apply in_app_or in Hx. destruct Hx as [Hx|Hx]; [auto|]. apply in_app_or in Hx. destruct Hx as [Hx|Hx]; [exact (KM cand H2 x Hx)|].
      eapply KC; [|exact Hx]. intros y [<-|[]]. exact Hl.
    + destruct (forallb (same_row l) cand).
      * eapply IH; [exact Ht| |exact H3|exact Hr]. intros x Hx. apply in_app_or in Hx. destruct Hx as [Hx|[<-|[]]]; auto.
      * eapply IH; [exact Ht| | |exact Hr]; [intros x []|]. intros x Hx. apply in_app_or in Hx. destruct Hx as [Hx|Hx]; [auto|]. apply in_app_or in Hx. destruct Hx as [Hx|Hx]; [exact (KC cand H2 x Hx)|].
        eapply KC; [|exact Hx]. intros y [<-|[]]. exact Hl.
Qed.
Lemma join_inv ls : (forall l, In l ls -> fine l) -> forall r, In r (lines_join thr merging ls) -> P r.
Proof.
  intros H r Hr. assert (H' : forall l, In l (lines_sort ls) -> fine l) by (intros l Hl; apply H; eapply Permutation_in; [apply Permutation_sym, lines_sort_perm|exact Hl]).
  unfold lines_join in Hr. destruct (lines_sort ls) as [|l t]; [destruct Hr|]. apply filter_In in Hr. destruct Hr as [Hr _].
  eapply loop_inv; [| | |exact Hr]; [intros x Hx; apply H'; right; exact Hx|intros x [<-|[]]; apply H'; left; reflexivity|intros x []].
Qed.
End JoinInv.
(** Neatly nested: spans in their line, lines in their block. *)
Definition neat (b : tblock) : Prop := box (b_bbox b) /\ forall l, In l (b_lines b) -> normal_line l /\ Rect.covers (b_bbox b) (ln_bbox l) /\ forall s, In s (ln_spans l) -> Rect.covers (ln_bbox l) (span_bbox s).
Definition W (lo hi : Q) (r : rect) : Prop := valid r /\ rect_decimal r /\ lo <= ry0 r /\ ry1 r <= hi.
Lemma union_W lo hi a b : W lo hi a -> W lo hi b -> W lo hi (union_bbox a b).
Proof.
  intros (Va & Da & A1 & A2) (Vb & Db & B1 & B2). destruct (union_normal a b (conj Va Da) (conj Vb Db)) as ((_ & E0 & _ & E1) & V & D).
  split; [exact V|]. split; [exact D|]. rewrite E0, E1. unfold runion. destruct (rect_empty b); [auto|]. destruct (rect_empty a); [auto|]. cbn [ry0 ry1]. unfold qmin, qmax. qcases; lra.
Qed.
Lemma extremes (f : tblock -> Q) bs : bs <> [] -> exists a, In a bs /\ forall b, In b bs -> f a <= f b.
Proof.
  induction bs as [|x t IH]; intros N; [congruence|]. destruct t as [|y t]; [exists x; split; [left; reflexivity|intros b [<-|[]]; lra]|].
  destruct IH as (a & Ha & H); [discriminate|]. destruct (Qlt_le_dec (f a) (f x)) as [L|L].
  - exists a. split; [right; exact Ha|]. intros b [<-|Hb]; [lra|apply H; exact Hb].
  - exists x. split; [left; reflexivity|]. intros b [<-|Hb]; [lra|]. specialize (H b Hb). lra.
Qed.
Lemma joined_range thr merging g : (forall b, In b g -> b_bool b = true -> neat b) -> b_bool (joined_block thr merging g) = true ->
  exists a b, In a g /\ b_bool a = true /\ In b g /\ b_bool b = true /\ ry0 (b_bbox a) <= ry0 (b_bbox (joined_block thr merging g)) /\ ry1 (b_bbox (joined_block thr merging g)) <= ry1 (b_bbox b) /\
    ry0 (b_bbox (joined_block thr merging g)) <= ry1 (b_bbox (joined_block thr merging g)).
Proof.
  intros N T. assert (Nl : forall b l, In b g -> b_bool b = true -> In l (b_lines b) -> normal_line l) by (intros b l Hb Tb Hl; apply (proj2 (N b Hb Tb) l Hl)).
  destruct (joined_truthy thr merging g Nl) as [J1 J2]. rewrite J1 in T.
  unfold joined_block in *. cbn [b_bbox b_lines] in *. fold (lines_in (filter b_bool g)) in *. set (F := filter b_bool g) in *.
  assert (NL : forall l, In l (lines_in F) -> normal_line l).
  { intros l Hl. apply in_flat_map in Hl. destruct Hl as (b & Hb & Hl). apply filter_In in Hb. eapply Nl; [apply Hb|apply Hb|exact Hl]. }
  rewrite normal_filter in * by exact NL.
  assert (NF : F <> []) by (intros E; rewrite E in T; discriminate).
  destruct (extremes (fun b => ry0 (b_bbox b)) F NF) as (a & Ha & Ma). destruct (extremes (fun b => - ry1 (b_bbox b)) F NF) as (b & Hb & Mb). cbv beta in Ma, Mb.
  apply filter_In in Ha. apply filter_In in Hb. destruct Ha as [Ha Ta], Hb as [Hb Tb]. exists a, b. split; [exact Ha|]. split; [exact Ta|]. split; [exact Hb|]. split; [exact Tb|].
  set (lo := ry0 (b_bbox a)) in *. set (hi := ry1 (b_bbox b)) in *.
  assert (WL : forall l, In l (lines_in F) -> W lo hi (ln_bbox l) /\ forall s, In s (ln_spans l) -> W lo hi (span_bbox s)).
  { intros l Hl. pose proof (NL l Hl) as (P & D & Sp). apply in_flat_map in Hl. destruct Hl as (c & Hc & Hl). pose proof (Ma c Hc) as M1. pose proof (Mb c Hc) as M2. apply filter_In in Hc. destruct Hc as [Hc Tc].
    destruct (N c Hc Tc) as [_ N2]. destruct (N2 l Hl) as (_ & (C1 & C2 & C3 & C4) & Cs). destruct P as [P1 P2].
    split; [split; [split; lra|]; split; [exact D|]; lra|]. intros s Hs. destruct (Sp s Hs) as (Vs & Ds & _). destruct (Cs s Hs) as (S1 & S2 & S3 & S4). split; [exact Vs|]. split; [exact Ds|]. lra. }
  assert (WJ : forall r, In r (lines_join thr merging (lines_in F)) -> W lo hi (ln_bbox r)).
  { apply (join_inv thr merging (fun l => W lo hi (ln_bbox l)) (fun s => W lo hi (span_bbox s))).
    - intros l s Hl Hs. unfold line_add. destruct (span_bool s); [|exact Hl]. apply union_W; assumption.
    - intros l Hl. exact (WL l Hl). }
  destruct (lines_in F) as [|l0 t] eqn:EL; [discriminate|]. cbn [fold_left].
  assert (U : W lo hi (union_bbox rect0 (ln_bbox l0))).
  { destruct (WL l0 (or_introl eq_refl)) as ((V & D & A1 & A2) & _). destruct (NL l0 (or_introl eq_refl)) as (P & _). unfold union_bbox, runion. rewrite (proper_nonempty _ P). cbn [rect_empty rx0 rx1 ry0 ry1 rect0].
    change (rect_empty rect0) with true. cbv iota. destruct (rround_fixed (ln_bbox l0) D) as (_ & E0 & _ & E1). split; [apply rround_valid; exact V|]. split; [apply rround_decimal|]. rewrite E0, E1. auto. }
  assert (FW : forall ls r, (forall l, In l ls -> W lo hi (ln_bbox l)) -> W lo hi r -> W lo hi (fold_left (fun r l => union_bbox r (ln_bbox l)) ls r)).
  { clear. induction ls as [|l t IH]; intros r H Wr; [exact Wr|]. cbn [fold_left]. apply IH; [intros x Hx; apply H; right; exact Hx|]. apply union_W; [exact Wr|apply H; left; reflexivity]. }
  assert (R : W lo hi (fold_left (fun r l => union_bbox r (ln_bbox l)) (lines_join thr merging (l0 :: t)) (fold_left (fun r l => union_bbox r (ln_bbox l)) t (union_bbox rect0 (ln_bbox l0))))).
  { apply FW; [exact WJ|]. apply FW; [|exact U]. intros l Hl. apply WL. right. exact Hl. }
  destruct R as ((_ & V) & _ & R1 & R2). auto.
Qed.
Lemma pairwise_filter {A} (R : A -> A -> Prop) p l : pairwise R l -> pairwise R (filter p l).
Proof. induction 1 as [|x l H D IH]; cbn [filter]; [constructor|]. destruct (p x); [|exact IH]. constructor; [|exact IH]. intros y Hy. apply filter_In in Hy. apply H. apply Hy. Qed.
Lemma pairwise_map {A B} (R : A -> A -> Prop) (R' : B -> B -> Prop) (h : A -> B) l : pairwise R l -> (forall x y, In x l -> In y l -> R x y -> R' (h x) (h y)) -> pairwise R' (map h l).
Proof.
  induction 1 as [|x l H D IH]; intros K; cbn [map]; [constructor|]. constructor; [|apply IH; intros a b Ha Hb; apply K; right; assumption].
  intros y Hy. apply in_map_iff in Hy. destruct Hy as (z & <- & Hz). apply K; [left; reflexivity|right; exact Hz|apply H; exact Hz].
Qed.
Lemma join_stacked order thr merging r out : (forall l, Permutation l (order l)) -> (forall b, In b r -> b_bool b = true -> neat b) ->
  join_horizontally order thr merging r = Some out -> pairwise (fun a b => ry1 (b_bbox a) < ry0 (b_bbox b) \/ ry1 (b_bbox b) < ry0 (b_bbox a)) out.
Proof.
  intros Ho N H. unfold join_horizontally in H.
  destruct (groups_stacked tblock side_by_side (fun b => ry0 (b_bbox b)) (fun b => ry1 (b_bbox b)) b_bool r order Ho) as (gs & Eg & Pg & D).
  { intros a b Ha Hb. unfold side_by_side, horizontally_align_with, b_elem, elem_bool. cbn [e_bbox]. fold (b_bool a) (b_bool b).
    destruct (b_bool b) eqn:Tb; cbn [negb orb]; [|split; [discriminate|tauto]]. destruct (b_bool a) eqn:Ta; cbn [negb orb]; [|split; [discriminate|intros (X & _); discriminate]].
    unfold overlap_enough, lo, hi. rewrite qle_iff. destruct (N a Ha Ta) as (((_ & Va) & _) & _). destruct (N b Hb Tb) as (((_ & Vb) & _) & _). unfold qmin, qmax. qcases; split; intros; repeat split; try lra; destruct H0 as (_ & _ & ? & ?); lra. }
  { intros a Ha Ta. destruct (N a Ha Ta) as (((_ & Va) & _) & _). lra. }
  rewrite Eg in H. injection H as <-.
  assert (Ng : forall g, In g gs -> forall b, In b g -> b_bool b = true -> neat b).
  { intros g Hg b Hb. apply N. eapply Permutation_in; [exact Pg|]. apply in_concat. exists g. auto. }
  assert (D2 : pairwise (fun a b => b_bool a = true -> b_bool b = true -> ry1 (b_bbox a) < ry0 (b_bbox b) \/ ry1 (b_bbox b) < ry0 (b_bbox a)) (map (joined_block thr merging) gs)).
  { eapply pairwise_map; [exact D|]. cbv beta. intros g h Hg Hh R Tg Th.
    destruct (joined_range thr merging g (Ng g Hg) Tg) as (a & b & Ha & Ta & Hb & Tb & A1 & A2 & A3). destruct (joined_range thr merging h (Ng h Hh) Th) as (c & d & Hc & Tc & Hd & Td & B1 & B2 & B3).
    destruct R as [R|R]; [left; specialize (R b c Hb Hc Tb Tc)|right; specialize (R d a Hd Ha Td Ta)]; unfold above in R; lra. }
  apply (pairwise_filter _ b_bool) in D2. remember (filter b_bool (map (joined_block thr merging) gs)) as out eqn:E.
  assert (TO : forall b, In b out -> b_bool b = true) by (intros b Hb; rewrite E in Hb; apply filter_In in Hb; apply Hb). clear E. revert TO.
  induction D2 as [|x l H D2 IH]; intros TO; constructor; [|apply IH; intros b Hb; apply TO; right; exact Hb].
  intros y Hy. apply H; [exact Hy|apply TO; left; reflexivity|apply TO; right; exact Hy].
Qed.
