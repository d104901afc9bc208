(** Proofs about multi-processing: pages converted (C10), schedules (C11), and
    about the output file (C07, C08). *)
From Coq Require Import String DecimalString DecimalNat Ascii.
From Verif Require Import PyBase PyBaseProof ConverterModel ConverterSpec ConverterProof MpModel.
Open Scope Z_scope.
Close Scope string_scope.

(* ------------------------------------------------------------------ *)
Lemma append_inj_l p a b : String.append p a = String.append p b -> a = b.
Proof. induction p as [|c t IH]; cbn; intros H; [exact H|]. injection H. exact IH. Qed.
Lemma append_len a b : String.length (String.append a b) = (String.length a + String.length b)%nat.
Proof. induction a; cbn; auto. Qed.
Lemma append_inj_r a b s : String.append a s = String.append b s -> a = b.
Proof.
  revert b. induction a as [|c t IH]; intros b H; destruct b as [|c2 t2]; cbn in H; auto.
  - exfalso. assert (L : String.length s = String.length (String c2 (String.append t2 s))) by (rewrite <- H; reflexivity).
    cbn in L. rewrite append_len in L. lia.
  - exfalso. assert (L : String.length (String c (String.append t s)) = String.length s) by (rewrite H; reflexivity).
    cbn in L. rewrite append_len in L. lia.
  - injection H as -> H. f_equal. apply IH. exact H.
Qed.
Lemma tmp_name_inj i j : tmp_name i = tmp_name j -> i = j.
Proof.
  unfold tmp_name. intros H. apply append_inj_l in H. apply append_inj_r in H.
  assert (E : NilEmpty.uint_of_string (NilEmpty.string_of_uint (Nat.to_uint i)) =
              NilEmpty.uint_of_string (NilEmpty.string_of_uint (Nat.to_uint j))) by (rewrite H; reflexivity).
  rewrite !NilEmpty.usu in E. injection E as E.
  apply DecimalNat.Unsigned.to_uint_inj. exact E.
Qed.

Section Mp.
Context {C : Type}.

Lemma tset_same (f : tdir C) p v : tset f p v p = v.
Proof. unfold tset. rewrite String.eqb_refl. reflexivity. Qed.
Lemma tset_other (f : tdir C) p q v : q <> p -> tset f p v q = f q.
Proof. intros H. unfold tset. destruct (String.eqb_spec q p); [congruence|reflexivity]. Qed.

(** Invariant of the worker phase. *)
Definition WInv (data : nat -> list (Z * C)) (dir0 : tdir C) (s : mpstate C) : Prop :=
  (forall w, mp_pc s w = 2%nat -> mp_dir s (tmp_name w) = Some (TPages (data w))) /\
  (forall p, (forall w, mp_pc s w <> O -> p <> tmp_name w) -> mp_dir s p = dir0 p).

Lemma wstep_inv data dir0 s w : WInv data dir0 s -> WInv data dir0 (wstep data s w).
Proof.
  intros (H1 & H3). unfold wstep.
  destruct (mp_pc s w) as [|[|m]] eqn:E; [| |exact (conj H1 H3)].
  - split; cbn [mp_pc mp_dir].
    + intros v. destruct (Nat.eqb_spec v w) as [->|Hne]; [discriminate|]. intros Hv.
      rewrite tset_other by (intros X; apply Hne; apply tmp_name_inj; exact X). apply H1. exact Hv.
    + intros p Hp. rewrite tset_other by (apply Hp; rewrite Nat.eqb_refl; discriminate).
      apply H3. intros v Hv. apply Hp. destruct (Nat.eqb v w); [discriminate|exact Hv].
  - split; cbn [mp_pc mp_dir].
    + intros v. destruct (Nat.eqb_spec v w) as [->|Hne]; intros Hv; [apply tset_same|].
      rewrite tset_other by (intros X; apply Hne; apply tmp_name_inj; exact X). apply H1. exact Hv.
    + intros p Hp. rewrite tset_other by (apply Hp; rewrite Nat.eqb_refl; discriminate).
      apply H3. intros v Hv. apply Hp. destruct (Nat.eqb v w); [discriminate|exact Hv].
Qed.

Lemma run_workers_inv data dir0 sched : WInv data dir0 (run_workers data dir0 sched).
Proof.
  unfold run_workers.
  assert (H : WInv data dir0 (mkMp dir0 (fun _ => O))).
  { split; cbn; intros; try discriminate; reflexivity. }
  revert H. generalize (mkMp dir0 (fun _ => O)). induction sched as [|w t IH]; intros s H; cbn; [exact H|].
  apply IH. apply wstep_inv. exact H.
Qed.

(** A worker that is never scheduled does not move. *)
Lemma run_workers_unscheduled (data : nat -> list (Z * C)) dir0 sched w : ~ In w sched -> mp_pc (run_workers data dir0 sched) w = O.
Proof.
  unfold run_workers. assert (H : mp_pc (mkMp dir0 (fun _ => O)) w = O) by reflexivity.
  revert H. generalize (mkMp dir0 (fun _ => O)).
  induction sched as [|v t IH]; intros s H Hn; cbn; [exact H|].
  apply IH; [|intros X; apply Hn; right; exact X].
  unfold wstep. assert (w <> v) by (intros ->; apply Hn; left; reflexivity).
  destruct (mp_pc s v) as [|[|m]]; cbn; try exact H;
  (destruct (Nat.eqb_spec w v); [congruence|exact H]).
Qed.

Definition mp_entries (rt : C -> C) (d : list (Z * C)) : list (stored C) :=
  map (fun e => mkStored (Some (fst e)) (rt (snd e)) true) d.

Lemma restore_valid_ok rt (d : list (Z * C)) : forall st,
  (forall e, In e d -> 0 <= fst e < zlen st) -> snd (restore (mp_entries rt d) st) = true.
Proof.
  induction d as [|e t IH]; intros st H; [reflexivity|].
  cbn [mp_entries map restore s_id s_ok]. rewrite norm_index_in by (apply H; left; reflexivity).
  apply IH. intros x Hx. unfold zlen. rewrite update_length. apply H. right. exact Hx.
Qed.

(** Main process, given complete files for all workers. *)
Lemma collect_all rt data : forall k i (dir : tdir C) (st : list (page C)),
  (forall w, (i <= w < i + k)%nat -> dir (tmp_name w) = Some (TPages (data w))) ->
  (forall w e, (i <= w < i + k)%nat -> In e (data w) -> 0 <= fst e < zlen st) ->
  exists dir',
    collect rt k i dir st =
      (fold_left (fun st w => fst (restore (mp_entries rt (data w)) st)) (seq i k) st, dir', true) /\
    (forall w, (i <= w < i + k)%nat -> dir' (tmp_name w) = None) /\
    (forall p, (forall w, (i <= w < i + k)%nat -> p <> tmp_name w) -> dir' p = dir p).
Proof.
  induction k as [|k IH]; intros i dir st Hd Hv; cbn [collect seq fold_left].
  - exists dir. split; [reflexivity|]. split; [intros w Hw; lia|reflexivity].
  - rewrite Hd by lia. pose proof (restore_valid_ok rt (data i) st) as Hok.
    assert (Hok' : snd (restore (mp_entries rt (data i)) st) = true) by (apply Hok; intros e He; apply (Hv i); [lia|exact He]).
    pose proof (restore_length (mp_entries rt (data i)) st) as Hlen.
    fold (mp_entries rt (data i)).
    destruct (restore (mp_entries rt (data i)) st) as [st' ok] eqn:E. cbn [fst snd] in *. subst ok.
    destruct (IH (S i) (tset dir (tmp_name i) None) st') as (dir' & H1 & H2 & H3).
    { intros w Hw. rewrite tset_other by (intros X; apply tmp_name_inj in X; lia). apply Hd. lia. }
    { intros w e Hw He. unfold zlen. rewrite Hlen. apply (Hv w); [lia|exact He]. }
    exists dir'. rewrite H1. split; [reflexivity|]. split.
    + intros w Hw. destruct (Nat.eq_dec w i) as [->|Hne]; [|apply H2; lia].
      rewrite H3 by (intros v Hv2 X; apply tmp_name_inj in X; lia). apply tset_same.
    + intros p Hp. rewrite H3 by (intros v Hv2; apply Hp; lia). apply tset_other. apply Hp. lia.
Qed.

(** Content of the worker results: valid pages only. *)
Lemma worker_pages_in (n : nat) (c0 : C) (orc : Z -> outcome C) i cpu s e x :
  (forall idx, In idx (segment i cpu s e) -> 0 <= idx < Z.of_nat n) ->
  In x (worker_pages n c0 (fun _ => orc) i cpu s e) <->
  exists k, 0 <= k < Z.of_nat n /\ (segment i cpu s e = [] \/ In k (segment i cpu s e)) /\
            exists c, orc k = Done c /\ x = (k, c).
Proof.
  intros Hv. unfold worker_pages, store. rewrite parse_fresh_final by exact Hv.
  rewrite in_map_iff. split.
  - intros (k & <- & Hk). apply filter_In in Hk. destruct Hk as [Hk Hs]. apply in_zrange in Hk.
    exists k. split; [exact Hk|]. unfold selected_ok in Hs. apply andb_prop in Hs. destruct Hs as [Hs1 Hs2].
    split.
    + apply orb_prop in Hs1. destruct Hs1 as [Hs1|Hs1].
      * left. destruct (segment i cpu s e); [reflexivity|discriminate].
      * right. destruct (in_dec Z.eq_dec k (segment i cpu s e)); [assumption|discriminate].
    + destruct (orc k) as [| | |c]; cbn in Hs2; try discriminate. exists c. split; reflexivity.
  - intros (k & Hk & Hsel & c & Hc & ->). exists k. rewrite Hc. split; [reflexivity|].
    apply filter_In. split; [apply in_zrange; exact Hk|]. unfold selected_ok. rewrite Hc. cbn [succeeded].
    rewrite andb_true_r. apply orb_true_iff. destruct Hsel as [->|Hin]; [left; reflexivity|right].
    destruct (in_dec Z.eq_dec k (segment i cpu s e)); [reflexivity|contradiction].
Qed.

(** Restoring entries whose content is a function of the page. *)
Lemma restore_consistent (g : Z -> C) (d : list Z) : forall (st : list (page C)) k,
  (forall i, In i d -> 0 <= i < zlen st) ->
  nth_error (fst (restore (map (fun i => mkStored (Some i) (g i) true) d) st)) k =
  if in_dec Z.eq_dec (Z.of_nat k) d then option_map (fun _ => mkPage (Z.of_nat k) true (g (Z.of_nat k))) (nth_error st k)
  else nth_error st k.
Proof.
  induction d as [|x t IH]; intros st k Hv; [reflexivity|].
  cbn [map restore s_id s_ok]. rewrite norm_index_in by (apply Hv; left; reflexivity).
  rewrite IH.
  2: { intros i Hi. unfold zlen. rewrite update_length. apply Hv. right. exact Hi. }
  assert (Hx : 0 <= x < zlen st) by (apply Hv; left; reflexivity).
  destruct (in_dec Z.eq_dec (Z.of_nat k) t) as [Hin|Hnin];
  destruct (in_dec Z.eq_dec (Z.of_nat k) (x :: t)) as [Hin2|Hnin2].
  - destruct (Nat.eq_dec k (Z.to_nat x)) as [->|Hne].
    + rewrite nth_error_update_eq. destruct (nth_error st _); reflexivity.
    + rewrite nth_error_update_ne by congruence. reflexivity.
  - exfalso. apply Hnin2. right. exact Hin.
  - destruct Hin2 as [Hx2|Hin2]; [|contradiction].
    assert (Hk : k = Z.to_nat x) by lia. subst k. rewrite nth_error_update_eq.
    destruct (nth_error st (Z.to_nat x)); cbn; [|reflexivity].
    unfold page_restore. cbn. rewrite <- Hx2. reflexivity.
  - rewrite nth_error_update_ne; [reflexivity|]. intros E. apply Hnin2. left. lia.
Qed.

Lemma fold_restore_consistent (g : Z -> C) (ds : list (list Z)) : forall (st : list (page C)) k,
  (forall d i, In d ds -> In i d -> 0 <= i < zlen st) ->
  nth_error (fold_left (fun st d => fst (restore (map (fun i => mkStored (Some i) (g i) true) d) st)) ds st) k =
  if in_dec Z.eq_dec (Z.of_nat k) (concat ds)
  then option_map (fun _ => mkPage (Z.of_nat k) true (g (Z.of_nat k))) (nth_error st k)
  else nth_error st k.
Proof.
  induction ds as [|d t IH]; intros st k Hv; [reflexivity|].
  cbn [fold_left concat]. rewrite IH.
  2: { intros d' i Hd Hi. unfold zlen. rewrite restore_length. apply (Hv d'); [right; exact Hd|exact Hi]. }
  rewrite restore_consistent by (intros i Hi; apply (Hv d); [left; reflexivity|exact Hi]).
  destruct (in_dec Z.eq_dec (Z.of_nat k) (concat t)) as [H1|H1];
  destruct (in_dec Z.eq_dec (Z.of_nat k) d) as [H2|H2];
  destruct (in_dec Z.eq_dec (Z.of_nat k) (d ++ concat t)) as [H3|H3]; try reflexivity;
  try (destruct (nth_error st k); reflexivity);
  try (exfalso; apply H3; apply in_or_app; auto; fail);
  try (apply in_app_or in H3; destruct H3; contradiction).
Qed.

Lemma zmin_list_le t : forall x y, In y (x :: t) -> zmin_list x t <= y.
Proof.
  unfold zmin_list. induction t as [|a t IH]; intros x y H; cbn.
  - destruct H as [->|[]]. lia.
  - destruct H as [->|[->|H]].
    + specialize (IH (Z.min y a) (Z.min y a) (or_introl eq_refl)). lia.
    + specialize (IH (Z.min x y) (Z.min x y) (or_introl eq_refl)). lia.
    + apply IH. right. exact H.
Qed.
Lemma zmax_list_ge t : forall x y, In y (x :: t) -> y <= zmax_list x t.
Proof.
  unfold zmax_list. induction t as [|a t IH]; intros x y H; cbn.
  - destruct H as [->|[]]. lia.
  - destruct H as [->|[->|H]].
    + specialize (IH (Z.max y a) (Z.max y a) (or_introl eq_refl)). lia.
    + specialize (IH (Z.max x y) (Z.max x y) (or_introl eq_refl)). lia.
    + apply IH. right. exact H.
Qed.
Lemma zmin_list_in t : forall x, In (zmin_list x t) (x :: t).
Proof.
  unfold zmin_list. induction t as [|a t IH]; intros x; cbn [fold_left]; [left; reflexivity|].
  destruct (IH (Z.min x a)) as [H|H]; [|right; right; exact H].
  destruct (Z.min_spec x a) as [[_ E]|[_ E]]; rewrite E in *; [left|right; left]; exact H.
Qed.
Lemma zmax_list_in t : forall x, In (zmax_list x t) (x :: t).
Proof.
  unfold zmax_list. induction t as [|a t IH]; intros x; cbn [fold_left]; [left; reflexivity|].
  destruct (IH (Z.max x a)) as [H|H]; [|right; right; exact H].
  destruct (Z.max_spec x a) as [[_ E]|[_ E]]; rewrite E in *; [right; left|left]; exact H.
Qed.

(** The exact set of pages made by multi-processing on a fresh converter. *)
Lemma mp_pages_exact n (c0 : C) (orc : Z -> outcome C) rt cpu sel x0 t st' :
  1 <= cpu -> sel = x0 :: t -> (forall i, In i sel -> 0 <= i < Z.of_nat n) ->
  mp_restore n c0 orc rt cpu sel (fresh n c0) = Some st' ->
  forall k, (k < n)%nat ->
  nth_error st' k =
  Some (match orc (Z.of_nat k) with
        | Done c =>
            if ((zmin_list x0 t <=? Z.of_nat k) && (Z.of_nat k <=? zmax_list x0 t))
               || existsb (fun i => match segment i cpu (zmin_list x0 t) (zmax_list x0 t) with [] => true | _ => false end)
                          (zrange 0 cpu)
            then mkPage (Z.of_nat k) true (rt c) else mkPage (-1) false c0
        | _ => mkPage (-1) false c0
        end).
Proof.
  intros Hcpu -> Hsel Hst k Hk. unfold mp_restore in Hst. injection Hst as <-.
  set (s := zmin_list x0 t). set (e := zmax_list x0 t).
  assert (Hs : 0 <= s < Z.of_nat n) by (apply Hsel; apply zmin_list_in).
  assert (He : 0 <= e < Z.of_nat n) by (apply Hsel; apply zmax_list_in).
  set (g := fun i => match orc i with Done c => rt c | _ => rt c0 end).
  assert (Hseg : forall i idx, In i (zrange 0 cpu) -> In idx (segment i cpu s e) -> s <= idx <= e).
  { intros i idx Hi Hidx. assert (In idx (zrange s (e + 1))).
    { rewrite <- (segments_cover cpu s e Hcpu). apply in_flat_map. exists i. split; assumption. }
    apply in_zrange in H. lia. }
  assert (Hvalid : forall i, In i (zrange 0 cpu) -> forall idx, In idx (segment i cpu s e) -> 0 <= idx < Z.of_nat n).
  { intros i Hi idx Hidx. pose proof (Hseg i idx Hi Hidx). lia. }
  assert (Hfold : forall l st, (forall i, In i l -> In i (zrange 0 cpu)) ->
    fold_left (fun st i => fst (restore (map (fun d => mkStored (Some (fst d)) (rt (snd d)) true)
                    (worker_pages n c0 (fun _ => orc) i cpu s e)) st)) l st =
    fold_left (fun st d => fst (restore (map (fun i => mkStored (Some i) (g i) true) d) st))
      (map (fun i => map fst (worker_pages n c0 (fun _ => orc) i cpu s e)) l) st).
  { induction l as [|a l IH]; intros st Hl; [reflexivity|]. cbn [fold_left map].
    rewrite IH by (intros i Hi; apply Hl; right; exact Hi). f_equal. f_equal. f_equal.
    rewrite map_map. apply map_ext_in. intros d Hd.
    apply worker_pages_in in Hd; [|apply Hvalid; apply Hl; left; reflexivity].
    destruct Hd as (j & _ & _ & c & Hc & ->). cbn. unfold g. rewrite Hc. reflexivity. }
  rewrite Hfold by auto.
  rewrite fold_restore_consistent.
  2: { intros d i Hd Hi. apply in_map_iff in Hd. destruct Hd as (j & <- & Hj).
       apply in_map_iff in Hi. destruct Hi as (x & <- & Hx).
       apply worker_pages_in in Hx; [|apply Hvalid; exact Hj].
       destruct Hx as (m & Hm & _ & c & _ & ->). cbn. rewrite zlen_fresh. exact Hm. }
  rewrite nth_error_fresh. replace (k <? n)%nat with true by (symmetry; apply Nat.ltb_lt; exact Hk).
  cbn [option_map].
  set (ex := existsb _ _).
  assert (Hin : In (Z.of_nat k) (concat (map (fun i => map fst (worker_pages n c0 (fun _ => orc) i cpu s e)) (zrange 0 cpu))) <->
     (exists c, orc (Z.of_nat k) = Done c) /\ (s <= Z.of_nat k <= e \/ ex = true)).
  { rewrite <- flat_map_concat_map, in_flat_map. split.
    - intros (i & Hi & Hx). apply in_map_iff in Hx. destruct Hx as (x & Hx1 & Hx).
      apply worker_pages_in in Hx; [|apply Hvalid; exact Hi].
      destruct Hx as (m & Hm & Hor & c & Hc & ->). cbn in Hx1. subst m.
      split; [exists c; exact Hc|]. destruct Hor as [He0|Hin2].
      + right. unfold ex. apply existsb_exists. exists i. split; [exact Hi|]. rewrite He0. reflexivity.
      + left. apply (Hseg i); assumption.
    - intros [(c & Hc) [Hr|Hex]].
      + assert (In (Z.of_nat k) (zrange s (e + 1))) by (apply in_zrange; lia).
        rewrite <- (segments_cover cpu s e Hcpu) in H. apply in_flat_map in H.
        destruct H as (i & Hi & Hin2). exists i. split; [exact Hi|].
        apply in_map_iff. exists (Z.of_nat k, c). split; [reflexivity|].
        apply worker_pages_in; [apply Hvalid; exact Hi|].
        exists (Z.of_nat k). split; [lia|]. split; [right; exact Hin2|]. exists c. split; [exact Hc|reflexivity].
      + unfold ex in Hex. apply existsb_exists in Hex. destruct Hex as (i & Hi & Hemp).
        exists i. split; [exact Hi|]. apply in_map_iff. exists (Z.of_nat k, c). split; [reflexivity|].
        apply worker_pages_in; [apply Hvalid; exact Hi|].
        exists (Z.of_nat k). split; [lia|]. split; [left; destruct (segment i cpu s e); [reflexivity|discriminate]|].
        exists c. split; [exact Hc|reflexivity]. }
  destruct (in_dec Z.eq_dec _ _) as [H|H].
  - apply Hin in H. destruct H as [(c & Hc) Hor].
    unfold g. rewrite Hc.
    replace (((s <=? Z.of_nat k) && (Z.of_nat k <=? e)) || ex) with true; [reflexivity|].
    destruct Hor as [Hr| ->]; [|rewrite orb_true_r; reflexivity].
    replace ((s <=? Z.of_nat k) && (Z.of_nat k <=? e)) with true by lia. reflexivity.
  - f_equal. destruct (orc (Z.of_nat k)) as [| | |c] eqn:Hc; try reflexivity.
    destruct (((s <=? Z.of_nat k) && (Z.of_nat k <=? e)) || ex) eqn:Eb; [|reflexivity].
    exfalso. apply H. apply Hin. split; [exists c; reflexivity|].
    apply orb_prop in Eb. destruct Eb as [Eb|Eb]; [left; lia|right; exact Eb].
Qed.

(** Sequential and parallel conversion agree when the selection is contiguous
    and no segment is empty. *)
Lemma mp_agrees n (c0 : C) (orc : Z -> outcome C) rt cpu sel st' :
  1 <= cpu -> sel <> [] -> (forall i, In i sel -> 0 <= i < Z.of_nat n) ->
  (forall i j k, In i sel -> In k sel -> i <= j <= k -> In j sel) ->
  (forall i x0 t, 0 <= i < cpu -> sel = x0 :: t -> segment i cpu (zmin_list x0 t) (zmax_list x0 t) <> []) ->
  mp_restore n c0 orc rt cpu sel (fresh n c0) = Some st' ->
  forall k, (k < n)%nat ->
  nth_error st' k =
  option_map (fun pg => if p_final pg then mkPage (p_id pg) true (rt (p_content pg)) else mkPage (-1) false c0)
    (nth_error (parse (fun _ => orc) sel (fresh n c0)) k).
Proof.
  intros Hcpu Hne Hv Hcont Hseg Hst k Hk.
  destruct sel as [|x0 t] eqn:Es; [congruence|]. rewrite <- Es in *.
  rewrite (mp_pages_exact n c0 orc rt cpu sel x0 t st' Hcpu Es Hv Hst k Hk).
  rewrite parse_fresh_at by assumption. cbn [option_map]. f_equal.
  assert (Hex : existsb (fun i => match segment i cpu (zmin_list x0 t) (zmax_list x0 t) with [] => true | _ => false end)
                          (zrange 0 cpu) = false).
  { apply not_true_is_false. intros H. apply existsb_exists in H. destruct H as (i & Hi & Hi2).
    apply in_zrange in Hi. specialize (Hseg i x0 t Hi Es). destruct (segment i cpu _ _); [congruence|discriminate]. }
  rewrite Hex, orb_false_r.
  replace (match sel with [] => true | _ => false end) with false by (rewrite Es; reflexivity). cbn [orb].
  destruct (in_dec Z.eq_dec (Z.of_nat k) sel) as [Hin|Hnin].
  - replace ((zmin_list x0 t <=? Z.of_nat k) && (Z.of_nat k <=? zmax_list x0 t)) with true.
    + destruct (orc (Z.of_nat k)); reflexivity.
    + rewrite Es in Hin. pose proof (zmin_list_le t x0 _ Hin). pose proof (zmax_list_ge t x0 _ Hin). lia.
  - replace ((zmin_list x0 t <=? Z.of_nat k) && (Z.of_nat k <=? zmax_list x0 t)) with false.
    + destruct (orc (Z.of_nat k)); reflexivity.
    + symmetry. apply not_true_is_false. intros H. apply Hnin.
      apply (Hcont (zmin_list x0 t) (Z.of_nat k) (zmax_list x0 t)).
      * rewrite Es. apply zmin_list_in.
      * rewrite Es. apply zmax_list_in.
      * lia.
Qed.

(** Schedules. *)
Lemma mp_schedule (n cpu : nat) (c0 : C) (orc : Z -> outcome C) rt s e dir0 sched (st : list (page C)) :
  (forall w, (w < cpu)%nat -> forall idx, In idx (segment (Z.of_nat w) (Z.of_nat cpu) s e) -> 0 <= idx < Z.of_nat n) ->
  length st = n ->
  let data := fun w => worker_pages n c0 (fun _ => orc) (Z.of_nat w) (Z.of_nat cpu) s e in
  let fin := run_workers data dir0 sched in
  (forall w, In w sched -> (w < cpu)%nat) ->
  (forall w, (w < cpu)%nat -> mp_pc fin w = 2%nat) ->
  exists dir',
    collect rt cpu 0 (mp_dir fin) st =
      (fold_left (fun st w => fst (restore (mp_entries rt (data w)) st)) (seq 0 cpu) st, dir', true) /\
    (forall w, (w < cpu)%nat -> dir' (tmp_name w) = None) /\
    (forall p, (forall w, (w < cpu)%nat -> p <> tmp_name w) -> dir' p = dir0 p).
Proof.
  intros Hseg Hlen data fin Hsched Hdone.
  destruct (run_workers_inv data dir0 sched) as (H1 & H3).
  destruct (collect_all rt data cpu 0 (mp_dir fin) st) as (dir' & E1 & E2 & E3).
  - intros w Hw. apply H1. apply Hdone. lia.
  - intros w x Hw Hx. unfold data in Hx. apply worker_pages_in in Hx; [|apply Hseg; lia].
    destruct Hx as (m & Hm & _ & c & _ & ->). cbn. unfold zlen. rewrite Hlen. exact Hm.
  - exists dir'. split; [exact E1|]. split.
    + intros w Hw. apply E2. lia.
    + intros p Hp. rewrite E3 by (intros w Hw; apply Hp; lia).
      apply H3. intros w Hw. apply Hp.
      destruct (in_dec Nat.eq_dec w sched) as [Hin|Hnin]; [apply Hsched; exact Hin|].
      exfalso. apply Hw. apply run_workers_unscheduled. exact Hnin.
Qed.
End Mp.

Section Mp2.
Context {C : Type}.
Lemma fold_seq_zrange {A} (f : A -> Z -> A) (k : nat) : forall a,
  fold_left (fun a w => f a (Z.of_nat w)) (seq 0 k) a = fold_left f (zrange 0 (Z.of_nat k)) a.
Proof.
  unfold zrange. replace (Z.to_nat (Z.of_nat k - 0)) with k by lia.
  generalize (seq 0 k). induction l as [|x t IH]; intros a; [reflexivity|]. cbn [fold_left map]. apply IH.
Qed.

(** Whatever the schedule and the initial directory, the main process ends up
    with the pages of [mp_restore], and the directory without temporary files. *)
Lemma mp_schedule_pages (n cpu : nat) (c0 : C) (orc : Z -> outcome C) rt sel x0 t dir0 sched (st : list (page C)) st' :
  (1 <= cpu)%nat -> sel = x0 :: t -> (forall i, In i sel -> 0 <= i < Z.of_nat n) -> length st = n ->
  mp_restore n c0 orc rt (Z.of_nat cpu) sel st = Some st' ->
  let data := fun w => worker_pages n c0 (fun _ => orc) (Z.of_nat w) (Z.of_nat cpu) (zmin_list x0 t) (zmax_list x0 t) in
  let fin := run_workers data dir0 sched in
  (forall w, In w sched -> (w < cpu)%nat) ->
  (forall w, (w < cpu)%nat -> mp_pc fin w = 2%nat) ->
  exists dir',
    collect rt cpu 0 (mp_dir fin) st = (st', dir', true) /\
    (forall w, (w < cpu)%nat -> dir' (tmp_name w) = None) /\
    (forall p, (forall w, (w < cpu)%nat -> p <> tmp_name w) -> dir' p = dir0 p).
Proof.
  intros Hcpu -> Hv Hlen Hst data fin Hs Hd. unfold mp_restore in Hst. injection Hst as <-.
  destruct (mp_schedule n cpu c0 orc rt (zmin_list x0 t) (zmax_list x0 t) dir0 sched st) as (dir' & E1 & E2 & E3); auto.
  - intros w Hw idx Hidx.
    assert (Hin : In idx (zrange (zmin_list x0 t) (zmax_list x0 t + 1))).
    { rewrite <- (segments_cover (Z.of_nat cpu)) by lia. apply in_flat_map. exists (Z.of_nat w).
      split; [apply in_zrange; lia|exact Hidx]. }
    apply in_zrange in Hin.
    pose proof (Hv _ (zmin_list_in t x0)). pose proof (Hv _ (zmax_list_in t x0)). lia.
  - exists dir'. split; [|split; assumption]. unfold fin, data. rewrite E1. f_equal. f_equal.
    rewrite <- fold_seq_zrange. reflexivity.
Qed.
End Mp2.

(* ------------------------------------------------------------------ *)
(** * Output path *)
Lemma prefixb_spec p s : prefixb p s = true <-> exists b, s = p ++ b.
Proof.
  revert s. induction p as [|a p IH]; intros s; cbn.
  - split; [intros _; exists s; reflexivity|reflexivity].
  - destruct s as [|c t].
    + split; [discriminate|]. intros [b H]. discriminate.
    + rewrite andb_true_iff, IH, Ascii.eqb_eq. split.
      * intros [-> [b ->]]. exists b. reflexivity.
      * intros [b H]. injection H as -> ->. split; [reflexivity|exists b; reflexivity].
Qed.
Lemma py_replace_skip old new k s : py_replace old new k s = py_replace old new 0 (skipn k s).
Proof.
  revert s. induction k as [|k IH]; intros s; [destruct s; reflexivity|].
  destruct s as [|c t]; [reflexivity|]. cbn [py_replace skipn]. apply IH.
Qed.
Lemma replace_pdf_hit b : replace_pdf (dot_pdf ++ b) = dot_docx ++ replace_pdf b.
Proof.
  unfold replace_pdf. cbn [dot_pdf app py_replace].
  replace (prefixb _ _) with true by reflexivity. rewrite py_replace_skip. reflexivity.
Qed.
Lemma replace_pdf_nil : replace_pdf [] = [].
Proof. reflexivity. Qed.
Lemma replace_pdf_miss c t : (forall b, c :: t <> dot_pdf ++ b) -> replace_pdf (c :: t) = c :: replace_pdf t.
Proof.
  intros H. unfold replace_pdf. cbn [py_replace].
  destruct (prefixb _ (c :: t)) eqn:E; [|reflexivity].
  apply prefixb_spec in E. destruct E as [b E]. exfalso. exact (H b E).
Qed.
Lemma dec_prefix c t : (exists b, c :: t = dot_pdf ++ b) \/ (forall b, c :: t <> dot_pdf ++ b).
Proof.
  destruct (prefixb dot_pdf (c :: t)) eqn:E.
  - left. apply prefixb_spec. exact E.
  - right. intros b H. assert (prefixb dot_pdf (c :: t) = true) by (apply prefixb_spec; exists b; exact H). congruence.
Qed.

Lemma replace_pdf_length_ge s : (length s <= length (replace_pdf s))%nat.
Proof.
  assert (G : forall n s, (length s <= n)%nat -> (length s <= length (replace_pdf s))%nat).
  { induction n as [|n IH]; intros l Hl.
    - destruct l; [cbn; lia|cbn in Hl; lia].
    - destruct l as [|c l1]; [cbn; lia|]. destruct (dec_prefix c l1) as [[b E]|E].
      + rewrite E in *. rewrite replace_pdf_hit. rewrite !app_length in *. cbn [length dot_pdf dot_docx] in *.
        assert (length b <= length (replace_pdf b))%nat by (apply IH; lia). lia.
      + rewrite replace_pdf_miss by exact E. cbn [length] in *.
        assert (length l1 <= length (replace_pdf l1))%nat by (apply IH; lia). lia. }
  apply (G (length s)). lia.
Qed.

Lemma replace_pdf_longer a b : (length (a ++ dot_pdf ++ b) < length (replace_pdf (a ++ dot_pdf ++ b)))%nat.
Proof.
  assert (G : forall n a b, (length a <= n)%nat -> (length (a ++ dot_pdf ++ b) < length (replace_pdf (a ++ dot_pdf ++ b)))%nat).
  { induction n as [|n IH]; intros a0 b0 Hn.
    - destruct a0; [|cbn in Hn; lia]. cbn [app]. rewrite replace_pdf_hit. rewrite !app_length.
      cbn [length dot_pdf dot_docx]. pose proof (replace_pdf_length_ge b0). lia.
    - destruct a0 as [|c t].
      { cbn [app]. rewrite replace_pdf_hit. rewrite !app_length.
        cbn [length dot_pdf dot_docx]. pose proof (replace_pdf_length_ge b0). lia. }
      cbn [app]. destruct (dec_prefix c (t ++ dot_pdf ++ b0)) as [[b' E]|E].
      + rewrite E. rewrite replace_pdf_hit, !app_length. cbn [length dot_pdf dot_docx].
        pose proof (replace_pdf_length_ge b'). lia.
      + rewrite replace_pdf_miss by exact E. cbn [length] in *.
        assert (length (t ++ dot_pdf ++ b0) < length (replace_pdf (t ++ dot_pdf ++ b0)))%nat by (apply IH; lia). lia. }
  apply (G (length a)). lia.
Qed.

Lemma replace_pdf_none s : ~ contains_pdf s -> replace_pdf s = s.
Proof.
  induction s as [|c t IH]; intros H; [reflexivity|].
  rewrite replace_pdf_miss.
  - f_equal. apply IH. intros (a & b & ->). apply H. exists (c :: a), b. reflexivity.
  - intros b E. apply H. exists [], b. exact E.
Qed.

(** Overlap: a piece without ".pdf" followed by ".pdf". *)
Lemma replace_pdf_piece p r : ~ contains_pdf p -> replace_pdf (p ++ dot_pdf ++ r) = p ++ dot_docx ++ replace_pdf r.
Proof.
  induction p as [|c t IH]; intros H.
  - cbn [app]. apply replace_pdf_hit.
  - cbn [app]. rewrite replace_pdf_miss.
    + f_equal. apply IH. intros (a & b & ->). apply H. exists (c :: a), b. reflexivity.
    + intros b E. (* ".pdf" starting inside c::t and crossing into the next ".pdf" is impossible *)
      destruct t as [|c1 [|c2 [|c3 t3]]]; cbn [app dot_pdf] in E.
      * injection E as _ E2. discriminate.
      * injection E as _ _ E2. discriminate.
      * injection E as _ _ _ E2. discriminate.
      * injection E as -> -> -> -> _. apply H. exists [], t3. reflexivity.
Qed.

Lemma replace_pdf_glue pieces : pieces <> [] -> Forall (fun p => ~ contains_pdf p) pieces ->
  replace_pdf (glue dot_pdf pieces) = glue dot_docx pieces.
Proof.
  induction pieces as [|p t IH]; intros Hne Hf; [congruence|].
  inversion Hf as [|x l Hp Ht]; subst. destruct t as [|q t'].
  - cbn. apply replace_pdf_none. exact Hp.
  - change (glue dot_pdf (p :: q :: t')) with (p ++ dot_pdf ++ glue dot_pdf (q :: t')).
    change (glue dot_docx (p :: q :: t')) with (p ++ dot_docx ++ glue dot_docx (q :: t')).
    rewrite replace_pdf_piece by exact Hp. rewrite IH; [reflexivity|discriminate|exact Ht].
Qed.

Lemma pieces_exist s : exists pieces, pieces <> [] /\ Forall (fun p => ~ contains_pdf p) pieces /\ s = glue dot_pdf pieces.
Proof.
  assert (Hd : forall s, (exists a b, ~ contains_pdf a /\ s = a ++ dot_pdf ++ b) \/ ~ contains_pdf s).
  { clear s. induction s as [|c t IH].
    - right. intros (a & b & E). destruct a; discriminate.
    - destruct (dec_prefix c t) as [[b E]|E].
      + left. exists [], b. split; [|exact E]. intros (x & y & Hx). destruct x; discriminate.
      + destruct IH as [(a & b & Ha & ->)|Hn].
        * left. exists (c :: a), b. split; [|reflexivity].
          intros (x & y & Hx). destruct x as [|x0 x].
          -- cbn [app dot_pdf] in Hx.
             apply (E (y ++ dot_pdf ++ b)). cbn [app dot_pdf]. injection Hx as -> ->. reflexivity.
          -- injection Hx as -> ->. apply Ha. exists x, y. reflexivity.
        * right. intros (x & y & Hx). destruct x as [|x0 x].
          -- exact (E y Hx).
          -- injection Hx as -> ->. apply Hn. exists x, y. reflexivity. }
  remember (length s) as n eqn:En. revert s En.
  induction n as [n IH] using (well_founded_induction Wf_nat.lt_wf). intros s ->.
  destruct (Hd s) as [(a & b & Ha & ->)|Hn].
  - destruct (IH (length b)) with (s := b) as (ps & H1 & H2 & H3); [rewrite !app_length; cbn; lia|reflexivity|].
    exists (a :: ps). split; [discriminate|]. split; [constructor; assumption|].
    destruct ps as [|q ps]; [congruence|]. rewrite H3. reflexivity.
  - exists [s]. split; [discriminate|]. split; [constructor; [exact Hn|constructor]|reflexivity].
Qed.

Lemma default_path_differs pdf : contains_pdf pdf -> out_path None pdf <> pdf.
Proof.
  intros (a & b & ->) E. cbn [out_path] in E.
  pose proof (replace_pdf_longer a b) as H. rewrite E in H. lia.
Qed.

(* ------------------------------------------------------------------ *)
(** * File system *)
Section FS.
Context {doc : Type}.
Lemma path_eqb_refl p : path_eqb p p = true.
Proof. unfold path_eqb. destruct (list_eq_dec ascii_dec p p); [reflexivity|congruence]. Qed.
Lemma path_eqb_ne p q : p <> q -> path_eqb p q = false.
Proof. unfold path_eqb. destruct (list_eq_dec ascii_dec p q); [congruence|reflexivity]. Qed.

Lemma fold_other (f : fs doc) p q steps : q <> p ->
  (forall s, In s steps -> match s with SRemove r => r = p | SCreate r => r = p | SFinish r _ => r = p end) ->
  fold_left do_fstep steps f q = f q.
Proof.
  intros Hq. revert f. induction steps as [|s t IH]; intros f Hs; [reflexivity|].
  cbn [fold_left]. rewrite IH by (intros x Hx; apply Hs; right; exact Hx).
  pose proof (Hs s (or_introl eq_refl)) as H.
  destruct s; subst; cbn [do_fstep]; unfold fs_set; rewrite path_eqb_ne by exact Hq; reflexivity.
Qed.

Lemma steps_only_p (f : fs doc) p built s : In s (make_docx_steps f p built) ->
  match s with SRemove r => r = p | SCreate r => r = p | SFinish r _ => r = p end.
Proof.
  unfold make_docx_steps. destruct built as [d|]; [|intros []].
  destruct (f p); cbn; intros H; repeat (destruct H as [<-|H]; [reflexivity|]); destruct H.
Qed.

Lemma firstn_In {A} (l : list A) n x : In x (firstn n l) -> In x l.
Proof. revert n. induction l as [|y t IH]; intros n; destruct n; cbn; auto; intros []; auto. right. eapply IH. eassumption. Qed.

Lemma crash_states (f : fs doc) p d k :
  (forall q, q <> p -> after_crash f p (Some d) k q = f q) /\
  (after_crash f p (Some d) k p = f p \/ after_crash f p (Some d) k p = None \/
   after_crash f p (Some d) k p = Some FPartial \/ after_crash f p (Some d) k p = Some (FDocx d)) /\
  ((3 <= k)%nat -> after_crash f p (Some d) k p = Some (FDocx d)).
Proof.
  split; [|split].
  - intros q Hq. unfold after_crash. apply fold_other with (p := p); [exact Hq|].
    intros s Hs. apply firstn_In in Hs. eapply steps_only_p. exact Hs.
  - unfold after_crash, make_docx_steps. destruct (f p) eqn:E; destruct k as [|[|[|k]]]; cbn;
      unfold fs_set; rewrite ?path_eqb_refl; auto; rewrite ?firstn_nil; cbn; rewrite ?path_eqb_refl; auto.
  - intros Hk. unfold after_crash, make_docx_steps. destruct k as [|[|[|k]]]; try lia.
    destruct (f p) eqn:E; cbn; rewrite ?firstn_nil; cbn; unfold fs_set; rewrite ?path_eqb_refl; reflexivity.
Qed.

Lemma crash_none (f : fs doc) p k : after_crash f p None k = f.
Proof. unfold after_crash, make_docx_steps. rewrite firstn_nil. reflexivity. Qed.

Lemma make_docx_effect (f : fs doc) p d q :
  make_docx f p (Some d) q = if path_eqb q p then Some (FDocx d) else f q.
Proof.
  unfold make_docx, make_docx_steps. destruct (f p); cbn; unfold fs_set;
  destruct (path_eqb q p); reflexivity.
Qed.
End FS.
