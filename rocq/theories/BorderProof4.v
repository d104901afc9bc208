(** Every vertical white gap of a stream table holds a drawn border. *)
From Verif Require Export BorderProof3.
From Verif Require Import PathProof.
From Coq Require Import Relations Lqa Lia Permutation Sorting.Sorted.
Open Scope Q_scope.

Section Gap.
Variable order : list nat -> list nat.
Hypothesis Ho : forall l, Permutation l (order l).
(** One step of the loop over the columns. *)
Lemma cols_step rec ref c T B left right st1 : good_rec rec -> sound st1 -> is_dir true st1 T -> is_dir true st1 B -> is_dir false st1 left -> is_dir false st1 right ->
  let st2 := if Nat.eqb (length (group_by_rows order c)) 1 then st1 else rows_loop rec ref (group_by_rows order c) T B left right st1 in
  sound st2 /\ continues st1 st2.
Proof.
  intros G S DT DB DL DR. cbv zeta. destruct (Nat.eqb _ _); [split; [exact S|apply continues_refl]|]. apply rows_loop_good; assumption.
Qed.
Lemma cols_loop_border rec ref c c' post : good_rec rec -> forall pre T B left R st,
  sound st -> is_dir true st T -> is_dir true st B -> is_dir false st left -> is_dir false st R ->
  exists k b, nth_error (cols_loop order rec ref (pre ++ c :: c' :: post) T B left R st) k = Some b /\
    bd_h b = false /\ bd_lo b = rx1 (coll_bbox c) /\ bd_hi b = rx0 (coll_bbox c') /\ bd_l b = T /\ bd_u b = B /\ bd_ref b = false.
Proof.
  intros G. induction pre as [|x pre IH]; intros T B left R st S DT DB DL DR.
  - cbn [app cols_loop]. cbv zeta. set (nb := new_border false (rx1 (coll_bbox c)) (rx0 (coll_bbox c')) T B false).
    assert (C1 : continues st (st ++ [nb])) by apply continues_app.
    assert (S1 : sound (st ++ [nb])) by (apply sound_app; assumption).
    destruct (cols_step rec ref c T B left (length st) (st ++ [nb]) G S1) as [S2 C2]; try (eapply continues_dir; [exact C1|assumption]); [apply is_dir_new|].
    cbv zeta in *. match type of S2 with sound ?z => set (st2 := z) in * end.
    pose proof (continues_trans _ _ _ C1 C2) as C.
    destruct (cols_loop_good order rec ref G (c' :: post) T B (length st) R st2) as [_ C3]; try assumption; try (eapply continues_dir; [exact C|assumption]).
    { eapply continues_dir; [exact C2|apply is_dir_new]. }
    assert (En : nth_error (st ++ [nb]) (length st) = Some nb) by (rewrite nth_error_app2, Nat.sub_diag by lia; reflexivity).
    destruct (continues_trans _ _ _ C2 C3 _ _ En) as (b & Eb & Hb).
    exists (length st), b. split; [exact Eb|]. destruct Hb as [->| ->]; repeat split.
  - cbn [app cols_loop]. cbv zeta.
    assert (X : exists y t, pre ++ c :: c' :: post = y :: t) by (destruct pre; eexists; eexists; reflexivity). destruct X as (y & t & X).
    rewrite X. cbv iota. rewrite <- X. set (nb := new_border false (rx1 (coll_bbox x)) (rx0 (coll_bbox y)) T B false).
    assert (C1 : continues st (st ++ [nb])) by apply continues_app.
    assert (S1 : sound (st ++ [nb])) by (apply sound_app; assumption).
    destruct (cols_step rec ref x T B left (length st) (st ++ [nb]) G S1) as [S2 C2]; try (eapply continues_dir; [exact C1|assumption]); [apply is_dir_new|].
    cbv zeta in *. match type of S2 with sound ?z => set (st2 := z) in * end.
    pose proof (continues_trans _ _ _ C1 C2) as C.
    apply IH; try assumption; try (eapply continues_dir; [exact C|assumption]).
    eapply continues_dir; [exact C2|apply is_dir_new].
Qed.
Lemma inner_border fuel ls a b pre c c' post : group_by_columns order ls = pre ++ c :: c' :: post ->
  exists k x, nth_error (inner order (S fuel) ls 0 1 2 3 (outer_borders a b)) k = Some x /\
    bd_h x = false /\ bd_lo x = rx1 (coll_bbox c) /\ bd_hi x = rx0 (coll_bbox c') /\ bd_l x = 0%nat /\ bd_u x = 1%nat /\ bd_ref x = false.
Proof.
  intros E. cbn [inner]. cbv zeta. rewrite E. match goal with |- context [cols_loop _ _ _ _ _ _ _ _ ?x] => set (st1 := x) end.
  assert (H : sound st1 /\ continues (outer_borders a b) st1).
  { unfold st1. destruct (Nat.leb _ _); [|split; [apply outer_sound|apply continues_refl]]. split; [apply sound_refs, outer_sound|apply continues_refs]. }
  destruct H as [S1 C1]. apply cols_loop_border; [apply inner_good|exact S1| | | |]; (eapply continues_dir; [exact C1|]); eexists; split; reflexivity.
Qed.
(** The outer borders are still there, in the same place. *)
Lemma inner_outer fuel ls a b k x : nth_error (outer_borders a b) k = Some x ->
  exists x', nth_error (inner order fuel ls 0 1 2 3 (outer_borders a b)) k = Some x' /\ (x' = x \/ x' = set_ref x false).
Proof.
  intros E. destruct (inner_good order fuel ls 0%nat 1%nat 2%nat 3%nat (outer_borders a b)) as [_ C]; try (eexists; split; reflexivity); [apply outer_sound|]. apply C. exact E.
Qed.
Lemma inner_sound fuel ls a b : sound (inner order fuel ls 0 1 2 3 (outer_borders a b)).
Proof. apply inner_good; try (eexists; split; reflexivity). apply outer_sound. Qed.

(** A gap separates the columns. *)
Lemma column_side l g : (forall e, In e l -> good_box e) -> (forall e, In e l -> rx1 (e_bbox e) < g \/ g < rx0 (e_bbox e)) ->
  forall c, In c (group_by_columns order l) -> (forall e, In e c -> rx1 (e_bbox e) < g) \/ (forall e, In e c -> g < rx0 (e_bbox e)).
Proof.
  intros Hl Hg c Ic. unfold group_by_columns, sort_key in Ic. apply py_sort_In in Ic.
  unfold groups_of, group in Ic. set (f := fun a b : elem => vertically_align_with a b 0 false) in *.
  destruct (group_indexes_spec f order Ho l) as (gi & E & ND & Rg & NE & Cl). rewrite E in Ic.
  apply in_map_iff in Ic. destruct Ic as (grp & <- & Ig).
  assert (It : forall e, In e (flat_map (item_at l) grp) -> exists i, In i grp /\ nth_error l i = Some e).
  { intros e K. apply in_flat_map in K. destruct K as (i & Ii & K). unfold item_at in K. destruct (nth_error l i) eqn:En; [|destruct K]. destruct K as [<-|[]]. eauto. }
  assert (Ch : forall i j, chained f l i j -> forall a b, nth_error l i = Some a -> nth_error l j = Some b -> rx1 (e_bbox a) < g -> rx1 (e_bbox b) < g).
  { intros i j K. apply clos_rt_rt1n in K. induction K as [x|x y z H1 H2 IH]; intros a b Ea Eb La.
    - rewrite Ea in Eb. injection Eb as <-. exact La.
    - destruct (pair_some l _ _ H1) as (a0 & d & E0 & Ed). rewrite Ea in E0. injection E0 as <-.
      apply (IH d b Ed Eb). pose proof (linked_overlap l Hl _ _ _ _ H1 Ea Ed) as O. destruct (Hg d (nth_error_In _ _ Ed)); [assumption|].
      destruct (Hl a (nth_error_In _ _ Ea)) as ((Pa & _) & _). lra. }
  destruct grp as [|i0 t]; [left; intros e []|]. set (grp := i0 :: t) in *. assert (Ii0 : In i0 grp) by (left; reflexivity).
  assert (Ex : exists a0, nth_error l i0 = Some a0).
  { assert (L : (i0 < length l)%nat) by (apply Rg; apply in_concat; exists grp; split; assumption).
    destruct (nth_error l i0) eqn:En; [eauto|]. apply nth_error_None in En. lia. }
  destruct Ex as (a0 & Ea0). destruct (Hg a0 (nth_error_In _ _ Ea0)) as [L|L]; [left|right]; intros e Ie; apply It in Ie; destruct Ie as (i & Ii & Ei).
  - apply (Ch i0 i) with (a := a0); try assumption. apply (Cl grp i0 i Ig Ii0). exact Ii.
  - destruct (Hg e (nth_error_In _ _ Ei)) as [K|K]; [|exact K]. exfalso.
    assert (rx1 (e_bbox a0) < g). { apply (Ch i i0) with (a := e); try assumption. apply (Cl grp i i0 Ig Ii). exact Ii0. }
    destruct (Hl a0 (nth_error_In _ _ Ea0)) as ((Pa & _) & _). lra.
Qed.
Lemma gap_columns l g : (forall e, In e l -> good_box e) -> (forall e, In e l -> rx1 (e_bbox e) < g \/ g < rx0 (e_bbox e)) ->
  (exists e, In e l /\ rx1 (e_bbox e) < g) -> (exists e, In e l /\ g < rx0 (e_bbox e)) ->
  exists pre c c' post, group_by_columns order l = pre ++ c :: c' :: post /\
    (forall e, In e l -> rx1 (e_bbox e) < g -> rx1 (e_bbox e) <= rx1 (coll_bbox c)) /\ (forall e, In e l -> g < rx0 (e_bbox e) -> rx0 (coll_bbox c') <= rx0 (e_bbox e)) /\
    rx1 (coll_bbox c) < g < rx0 (coll_bbox c').
Proof.
  intros Hl Hg (el & Iel & Lel) (er & Ier & Ler).
  destruct (columns_separated order Ho l Hl) as (P & N & S). cbv zeta in *.
  pose proof (column_side l g Hl Hg) as Sd.
  assert (Gd : forall c e, In c (group_by_columns order l) -> In e c -> good_box e).
  { intros c e Ic Ie. apply Hl. eapply Permutation_in; [exact P|]. apply in_concat. exists c. split; assumption. }
  assert (Mem : forall e, In e l <-> exists c, In c (group_by_columns order l) /\ In e c).
  { intros e. split; intros K; [apply (Permutation_in _ (Permutation_sym P)) in K; apply in_concat in K; exact K|apply (Permutation_in _ P); apply in_concat; exact K]. }
  (* split at the last column left of the gap *)
  assert (Sp : forall cs, (forall c, In c cs -> c <> [] /\ ((forall e, In e c -> rx1 (e_bbox e) < g) \/ (forall e, In e c -> g < rx0 (e_bbox e)))) ->
     (forall c e, In c cs -> In e c -> good_box e) -> StronglySorted left_of cs ->
     (exists e c, In c cs /\ In e c /\ rx1 (e_bbox e) < g) -> (exists e c, In c cs /\ In e c /\ g < rx0 (e_bbox e)) ->
     exists pre c c' post, cs = pre ++ c :: c' :: post /\ (forall e, In e c -> rx1 (e_bbox e) < g) /\ (forall e, In e c' -> g < rx0 (e_bbox e)) /\
       (forall x e, In x (pre ++ [c]) -> In e x -> rx1 (e_bbox e) < g) /\ (forall x e, In x (c' :: post) -> In e x -> g < rx0 (e_bbox e))).
  { clear. induction cs as [|c t IH]; intros Sd Gd S (el & cl & Il & Iel & Ll) (er & cr & Ir & Ier & Lr); [destruct Il|].
    inversion S as [|? ? S1 S2]; subst. rewrite Forall_forall in S2.
    assert (Lc : forall e, In e c -> rx1 (e_bbox e) < g).
    { destruct (Sd c (or_introl eq_refl)) as [Nc [L|L]]; [exact L|]. exfalso. destruct c as [|x c0]; [congruence|].
      assert (Lx : g < rx0 (e_bbox x)) by (apply L; left; reflexivity). destruct (Gd _ x (or_introl eq_refl) (or_introl eq_refl)) as ((Px & _) & _).
      destruct Il as [<-|Il].
      - specialize (L el Iel). destruct (Gd _ el (or_introl eq_refl) Iel) as ((Pe & _) & _). lra.
      - specialize (S2 cl Il x el (or_introl eq_refl) Iel). destruct (Gd _ el (or_intror Il) Iel) as ((Pe & _) & _). lra. }
    destruct t as [|c' t'].
    { destruct Ir as [<-|[]]. specialize (Lc er Ier). destruct (Gd _ er (or_introl eq_refl) Ier) as ((Pe & _) & _). exfalso. lra. }
    destruct (Sd c' (or_intror (or_introl eq_refl))) as [Nc' [L|L]].
    - assert (Ir' : In cr (c' :: t')). { destruct Ir as [<-|Ir]; [|exact Ir]. specialize (Lc er Ier). destruct (Gd _ er (or_introl eq_refl) Ier) as ((Pe & _) & _). exfalso. lra. }
      destruct c' as [|x c0]; [congruence|].
      destruct IH as (pre & d & d' & post & E & D1 & D2 & D3 & D4).
      + intros z Iz. apply Sd. right. exact Iz.
      + intros z e Iz. apply Gd. right. exact Iz.
      + exact S1.
      + exists x, (x :: c0). split; [left; reflexivity|]. split; [left; reflexivity|]. apply L. left. reflexivity.
      + exists er, cr. auto.
      + rewrite E. exists (c :: pre), d, d', post. split; [reflexivity|]. split; [exact D1|]. split; [exact D2|]. split; [|exact D4].
        intros z e [<-|Iz]; [apply Lc|apply D3; exact Iz].
    - exists [], c, c', t'. split; [reflexivity|]. split; [exact Lc|]. split; [exact L|]. split.
      + intros z e [<-|[]]. apply Lc.
      + intros z e [<-|Iz] Ie; [apply L; exact Ie|]. inversion S1 as [|? ? S3 S4]; subst. rewrite Forall_forall in S4.
        destruct c' as [|x c0]; [congruence|]. specialize (S4 z Iz x e (or_introl eq_refl) Ie).
        assert (g < rx0 (e_bbox x)) by (apply L; left; reflexivity). destruct (Gd _ x (or_intror (or_introl eq_refl)) (or_introl eq_refl)) as ((Px & _) & _). lra. }
  destruct (Sp (group_by_columns order l)) as (pre & c & c' & post & E & D1 & D2 & D3 & D4).
  - intros c Ic. split; [apply N; exact Ic|apply Sd; exact Ic].
  - exact Gd.
  - exact S.
  - apply Mem in Iel. destruct Iel as (c & Ic & Ie). eauto.
  - apply Mem in Ier. destruct Ier as (c & Ic & Ie). eauto.
  - exists pre, c, c', post. split; [exact E|].
    assert (Ic : In c (group_by_columns order l)) by (rewrite E; apply in_or_app; right; left; reflexivity).
    assert (Ic' : In c' (group_by_columns order l)) by (rewrite E; apply in_or_app; right; right; left; reflexivity).
    destruct (coll_edges c (N c Ic) (fun e => Gd c e Ic)) as (Cv & _ & (m & Im & Em) & _).
    destruct (coll_edges c' (N c' Ic') (fun e => Gd c' e Ic')) as (Cv' & (m' & Im' & Em') & _).
    assert (Pre : forall x e, In x pre -> In e x -> rx1 (e_bbox e) <= rx1 (coll_bbox c)).
    { intros x e Ix Ie. rewrite E in S. clear - S Ix Ie Im Cv Hl Gd Ic. induction pre as [|y pre IH]; [destruct Ix|]. cbn [app] in S. inversion S as [|? ? S1 S2]; subst.
      destruct Ix as [->|Ix]; [|apply IH; assumption]. rewrite Forall_forall in S2. specialize (S2 c). 
      assert (K : left_of x c) by (apply S2; apply in_or_app; right; left; reflexivity). specialize (K e m Ie Im). destruct (Cv m Im) as (_ & _ & X & _).
      destruct (Gd c m Ic Im) as ((Pm & _) & _). lra. }
    assert (Post : forall x e, In x post -> In e x -> rx0 (coll_bbox c') <= rx0 (e_bbox e)).
    { intros x e Ix Ie. rewrite E in S. clear - S Ix Ie Im' Cv' Gd Ic'. induction pre as [|y pre IH].
      - cbn [app] in S. inversion S as [|? ? S1 S2]; subst. inversion S1 as [|? ? S3 S4]; subst. rewrite Forall_forall in S4. specialize (S4 x Ix m' e Im' Ie).
        destruct (Cv' m' Im') as (X & _). destruct (Gd c' m' Ic' Im') as ((Pm & _) & _). lra.
      - cbn [app] in S. inversion S; subst. apply IH; assumption. }
    assert (Pl : forall e, In e l -> exists x, In e x /\ (In x pre \/ x = c \/ x = c' \/ In x post)).
    { intros e Ie. apply Mem in Ie. destruct Ie as (x & Ix & Ie). exists x. split; [exact Ie|]. rewrite E in Ix. apply in_app_or in Ix. destruct Ix as [Ix|[Ix|[Ix|Ix]]]; auto. }
    repeat split.
    + intros e Ie Le. destruct (Pl e Ie) as (x & Iex & [X|[->|[->|X]]]).
      * eapply Pre; eassumption.
      * apply Cv. exact Iex.
      * specialize (D2 e Iex). destruct (Hl e Ie) as ((Pe & _) & _). lra.
      * specialize (D4 x e (or_intror X) Iex). destruct (Hl e Ie) as ((Pe & _) & _). lra.
    + intros e Ie Le. destruct (Pl e Ie) as (x & Iex & [X|[->|[->|X]]]).
      * assert (rx1 (e_bbox e) < g) by (apply (D3 x); [apply in_or_app; left; exact X|exact Iex]). destruct (Hl e Ie) as ((Pe & _) & _). lra.
      * specialize (D1 e Iex). destruct (Hl e Ie) as ((Pe & _) & _). lra.
      * apply Cv'. exact Iex.
      * eapply Post; eassumption.
    + specialize (D1 m Im). lra.
    + specialize (D2 m' Im'). lra.
Qed.
End Gap.
