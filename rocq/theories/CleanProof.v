(** Proofs about the clean-up of a page. *)
From Verif Require Import GeomProof AssignSpec AssignProof InterProof GraphProof BorderProof3 TextProof TextProps CleanSpec.
From Coq Require Import Lia Lqa Permutation Relations.
Open Scope Q_scope.

(** * Groups of lines: a partition for any boxes at all *)
Lemma solve_range fuel : forall v p, In p (solve fuel v) -> exists a b, In a v /\ In b v /\ p = (owner a, owner b).
Proof.
  induction fuel as [|fuel IH]; intros v p H; [destruct H|]. cbn [solve] in H. destruct (Nat.ltb (length v) 2); [destruct H|]. cbv zeta in H.
  set (L := firstn _ v) in *. set (R := skipn _ v) in *.
  assert (HLv : forall i, In i L -> In i v) by (intros i Hi; rewrite <- (firstn_skipn (Nat.div2 (length v)) v); apply in_or_app; auto).
  assert (HRv : forall i, In i R -> In i v) by (intros i Hi; rewrite <- (firstn_skipn (Nat.div2 (length v)) v); apply in_or_app; auto).
  repeat (apply in_app_or in H; destruct H as [H|H]);
    try (apply stab_sound in H; destruct H as (a & b & Ha & Hb & E & _); apply filter_In in Ha; apply filter_In in Hb; exists a, b; split; [destruct Ha; auto|split; [destruct Hb; auto|exact E]]).
  - destruct (IH L p H) as (a & b & Ha & Hb & E). exists a, b. auto.
  - destruct (IH R p H) as (a & b & Ha & Hb & E). exists a, b. auto.
Qed.
Lemma report_range rs i j : In (i, j) (report rs) -> (i < length rs)%nat /\ (j < length rs)%nat.
Proof.
  intros H. apply solve_range in H. destruct H as (a & b & Ha & Hb & E). injection E as -> ->.
  split; apply nth_error_Some; rewrite sorted_edges_owner; try assumption; discriminate.
Qed.
Section Part.
Variable order : list nat -> list nat.
Hypothesis Ho : forall l, Permutation l (order l).
Lemma groups_partition dx dy rs :
  exists gs, group_by_connectivity order dx dy rs = Some gs /\
    NoDup (concat gs) /\ (forall i, (i < length rs)%nat <-> In i (concat gs)) /\
    (forall grp i j, In grp gs -> In i grp ->
       (In j grp <-> clos_refl_trans nat (fun a b => In (a, b) (report (map (widen dx dy) rs)) \/ In (b, a) (report (map (widen dx dy) rs))) i j)).
Proof.
  set (ws := map (widen dx dy) rs).
  assert (Rg : forall a b, In (a, b) (report ws) -> (a < length rs)%nat /\ (b < length rs)%nat).
  { intros a b H. apply report_range in H. unfold ws in H. rewrite map_length in H. exact H. }
  set (g := map order (connectivity_graph dx dy rs)).
  assert (LE : length (connectivity_graph dx dy rs) = length rs /\ forall a b, edge (connectivity_graph dx dy rs) a b <-> In (a, b) (report ws) \/ In (b, a) (report ws)).
  { unfold connectivity_graph. fold ws. destruct (links_gen (report ws) (repeat [] (length rs))) as [H1 H2].
    { intros [i j] Hij. rewrite repeat_length. apply Rg. exact Hij. }
    cbv zeta in H1, H2. split; [rewrite H1; apply repeat_length|]. intros a b. rewrite H2. split.
    - intros [(ns & E & Hn)|([i j] & Hij & [[-> ->]|[-> ->]])].
      + apply nth_error_In in E. apply repeat_spec in E. subst. destruct Hn.
      + left. exact Hij.
      + right. exact Hij.
    - intros [E|E]; right; [exists (a, b)|exists (b, a)]; auto. }
  destruct LE as [L E0].
  assert (Hlen : length g = length rs) by (unfold g; rewrite map_length; exact L).
  assert (He : forall a b, edge g a b <-> In (a, b) (report ws) \/ In (b, a) (report ws)).
  { intros a b. unfold g. rewrite (edge_order order Ho). apply E0. }
  assert (Hr : in_range g) by (intros a b H; apply He in H; rewrite Hlen; destruct H as [H|H]; apply Rg in H; tauto).
  assert (Hs : symmetric_graph g) by (intros a b H; apply He; apply He in H; tauto).
  destruct (graph_bfs_components g Hr Hs) as (gs & G1 & G2 & G3 & G4 & _).
  exists (map order gs). unfold group_by_connectivity. fold g. rewrite G1. split; [reflexivity|].
  pose proof (Permutation_concat_map order Ho gs) as HP.
  split; [eapply Permutation_NoDup; [exact HP|exact G2]|]. split.
  - intros i. rewrite <- Hlen, G3. split; intros H.
    + eapply Permutation_in; [exact HP|exact H].
    + eapply Permutation_in; [apply Permutation_sym; exact HP|exact H].
  - intros grp i j Hg Hi. apply in_map_iff in Hg. destruct Hg as (x & <- & Hx).
    assert (Hi' : In i x) by (eapply Permutation_in; [apply Permutation_sym; apply Ho|exact Hi]).
    rewrite <- (reach_iff g _ He i j), <- (G4 x i j Hx Hi'). split; intros H.
    + eapply Permutation_in; [apply Permutation_sym; apply Ho|exact H].
    + eapply Permutation_in; [apply Ho|exact H].
Qed.
End Part.

(** * Floating images *)
Lemma nth_clear k bs j : nth_error (clear_box k bs) j =
  if Nat.eqb j k then option_map (fun b => mkBlk (b_img b) (rround rect0) (b_lines b)) (nth_error bs j) else nth_error bs j.
Proof.
  unfold clear_box. revert k j. induction bs as [|b t IH]; intros k j.
  - destruct k as [|k]; cbn [nth_error]; destruct (Nat.eqb j _); destruct j; reflexivity.
  - destruct k as [|k], j as [|j].
    + reflexivity.
    + reflexivity.
    + cbn [nth_error Nat.eqb]. destruct (nth_error t k); reflexivity.
    + specialize (IH k j). cbn [nth_error Nat.eqb]. rewrite <- IH. destruct (nth_error t k) eqn:E; reflexivity.
Qed.
Lemma clear_length k bs : length (clear_box k bs) = length bs.
Proof.
  unfold clear_box. destruct (nth_error bs k) eqn:E; [|reflexivity]. assert (k < length bs)%nat by (apply nth_error_Some; congruence).
  rewrite app_length, firstn_length. cbn [length]. rewrite skipn_length. lia.
Qed.
(** Positions of the image blocks met. *)
Definition met (ls : list (nat * line)) (bs : list tblock) (todo : list nat) : list nat :=
  flat_map (fun i => match nth_error ls i with Some (k, _) => match nth_error bs k with Some b => if b_img b then [k] else [] | None => [] end | None => [] end) todo.
Definition cleared (M : list nat) (k : nat) (b : tblock) : tblock := if memb k M then mkBlk (b_img b) (rround rect0) (b_lines b) else b.
Fixpoint clear_all (M : list nat) (k : nat) (bs : list tblock) : list tblock :=
  match bs with [] => [] | b :: t => cleared M k b :: clear_all M (S k) t end.
Lemma nth_clear_all M bs : forall k j, nth_error (clear_all M k bs) j = option_map (cleared M (k + j)) (nth_error bs j).
Proof.
  induction bs as [|b t IH]; intros k [|j]; cbn; try reflexivity; [rewrite Nat.add_0_r; reflexivity|]. rewrite IH, Nat.add_succ_r. reflexivity.
Qed.
Lemma float_loop_spec ls : forall todo bs, let '(fl, r) := float_loop ls todo bs in
  fl = map image_of (flat_map (item_at bs) (met ls bs todo)) /\ length r = length bs /\
  forall j, nth_error r j = option_map (cleared (met ls bs todo) j) (nth_error bs j).
Proof.
  induction todo as [|i t IH]; intros bs; cbn [float_loop].
  - split; [reflexivity|]. split; [reflexivity|]. intros j. cbn. destruct (nth_error bs j); reflexivity.
  - destruct (nth_error ls i) as [[k l]|] eqn:E.
    2: { specialize (IH bs). destruct (float_loop ls t bs) as [fl r]. cbn [met flat_map]. rewrite E. exact IH. }
    destruct (nth_error bs k) as [b|] eqn:Eb.
    2: { specialize (IH bs). destruct (float_loop ls t bs) as [fl r]. cbn [met flat_map]. rewrite E, Eb. exact IH. }
    destruct (b_img b) eqn:Ei.
    2: { specialize (IH bs). destruct (float_loop ls t bs) as [fl r]. cbn [met flat_map]. rewrite E, Eb, Ei. exact IH. }
    specialize (IH (clear_box k bs)). destruct (float_loop ls t (clear_box k bs)) as [fl r]. destruct IH as (F & Lr & R).
    assert (M : met ls (clear_box k bs) t = met ls bs t).
    { unfold met. apply flat_map_ext. intros i'. destruct (nth_error ls i') as [[k' l']|]; [|reflexivity]. rewrite nth_clear.
      destruct (Nat.eqb k' k); [|reflexivity]. destruct (nth_error bs k'); reflexivity. }
    rewrite M in F, R. assert (M2 : met ls bs (i :: t) = k :: met ls bs t) by (cbn [met flat_map]; rewrite E, Eb, Ei; reflexivity). rewrite M2.
    split; [|split; [rewrite Lr; apply clear_length|]].
    + cbn [flat_map]. rewrite map_app. unfold item_at at 1. rewrite Eb. cbn [map app]. f_equal. rewrite F. clear.
      induction (met ls bs t) as [|m ms IH]; [reflexivity|]. cbn [flat_map]. rewrite !map_app, IH. f_equal. unfold item_at. rewrite nth_clear.
      destruct (Nat.eqb m k); [|reflexivity]. destruct (nth_error bs m) as [x|]; reflexivity.
    + intros j. rewrite R, nth_clear. unfold cleared. cbn [memb existsb]. destruct (Nat.eqb_spec j k) as [->|N]; cbn [orb].
      * rewrite Eb. cbn. destruct (memb k (met ls bs t)); reflexivity.
      * reflexivity.
Qed.
Lemma numbered_In bs : forall k p, In p (numbered k bs) <-> exists j b, p = (k + j, snd p)%nat /\ nth_error bs j = Some b /\ In (snd p) (b_lines b) /\ ln_bool (snd p) = true.
Proof.
  induction bs as [|b t IH]; intros k p; cbn [numbered].
  - split; [intros []|]. intros (j & b & _ & H & _). destruct j; discriminate.
  - rewrite in_app_iff, in_map_iff, IH. split.
    + intros [(l & <- & Hl)|(j & c & E & N & I)].
      * apply filter_In in Hl. exists 0%nat, b. cbn. rewrite Nat.add_0_r. tauto.
      * exists (S j), c. rewrite Nat.add_succ_r. cbn [nth_error]. tauto.
    + intros ([|j] & c & E & N & I & T).
      * left. cbn in N. injection N as <-. exists (snd p). rewrite Nat.add_0_r in E. split; [symmetry; exact E|]. apply filter_In. auto.
      * right. exists j, c. rewrite Nat.add_succ_r in E. tauto.
Qed.
(** Each image block has at most one line: positions of lines determine it. *)
Lemma numbered_unique bs : (forall b, In b bs -> b_img b = true -> (length (b_lines b) <= 1)%nat) -> forall k i j x y b, 
  nth_error (numbered k bs) i = Some x -> nth_error (numbered k bs) j = Some y -> fst x = fst y -> nth_error bs (fst x - k) = Some b -> b_img b = true -> i = j.
Proof.
  induction bs as [|c t IH]; intros H k i j x y b Ei Ej E Eb Hb; cbn [numbered] in *; [destruct i; discriminate|].
  set (A := map (pair k) (filter ln_bool (b_lines c))) in *.
  assert (FA : forall i x, nth_error (A ++ numbered (S k) t) i = Some x -> (i < length A)%nat -> fst x = k).
  { intros i0 x0 E0 L0. rewrite nth_error_app1 in E0 by exact L0. apply nth_error_In in E0. apply in_map_iff in E0. destruct E0 as (l & <- & _). reflexivity. }
  assert (FB : forall i x, nth_error (A ++ numbered (S k) t) i = Some x -> (length A <= i)%nat -> (S k <= fst x)%nat).
  { intros i0 x0 E0 L0. rewrite nth_error_app2 in E0 by exact L0. apply nth_error_In in E0. apply numbered_In in E0. destruct E0 as (j0 & b0 & E0 & _). rewrite E0. cbn [fst]. lia. }
  destruct (Nat.lt_ge_cases i (length A)) as [Li|Li]; destruct (Nat.lt_ge_cases j (length A)) as [Lj|Lj].
  - pose proof (FA i x Ei Li) as Fx. rewrite Fx, Nat.sub_diag in Eb. cbn in Eb. injection Eb as ->. pose proof (H b (or_introl eq_refl) Hb) as Hl.
    unfold A in Li, Lj. rewrite map_length in Li, Lj.
    assert (length (filter ln_bool (b_lines b)) <= length (b_lines b))%nat by (clear; induction (b_lines b) as [|l ls IHl]; cbn; [lia|destruct (ln_bool l); cbn; lia]). lia.
  - pose proof (FA i x Ei Li). pose proof (FB j y Ej Lj). lia.
  - pose proof (FB i x Ei Li). pose proof (FA j y Ej Lj). lia.
  - pose proof (FB i x Ei Li) as Fx. rewrite nth_error_app2 in Ei, Ej by assumption.
    assert (i - length A = j - length A)%nat; [|lia].
    apply (IH (fun b Hb => H b (or_intror Hb)) (S k) _ _ x y b Ei Ej E); [|exact Hb].
    replace (fst x - k)%nat with (S (fst x - S k)) in Eb by lia. exact Eb.
Qed.
Lemma met_In ls bs todo k : In k (met ls bs todo) <-> exists i l b, In i todo /\ nth_error ls i = Some (k, l) /\ nth_error bs k = Some b /\ b_img b = true.
Proof.
  unfold met. rewrite in_flat_map. split.
  - intros (i & Hi & H). destruct (nth_error ls i) as [[k' l]|] eqn:E; [|destruct H]. destruct (nth_error bs k') as [b|] eqn:Eb; [|destruct H].
    destruct (b_img b) eqn:Ei; [|destruct H]. destruct H as [<-|[]]. exists i, l, b. auto.
  - intros (i & l & b & Hi & E & Eb & Ei). exists i. rewrite E, Eb, Ei. split; [exact Hi|left; reflexivity].
Qed.
Lemma met_NoDup bs todo : (forall b, In b bs -> b_img b = true -> (length (b_lines b) <= 1)%nat) -> NoDup todo -> NoDup (met (numbered 0 bs) bs todo).
Proof.
  intros H. induction todo as [|i t IH]; intros N; [constructor|]. inversion N as [|? ? N1 N2]. subst. specialize (IH N2).
  unfold met. cbn [flat_map]. change (flat_map _ t) with (met (numbered 0 bs) bs t).
  destruct (nth_error (numbered 0 bs) i) as [[k l]|] eqn:E; [|exact IH]. destruct (nth_error bs k) as [b|] eqn:Eb; [|exact IH]. destruct (b_img b) eqn:Ei; [|exact IH].
  cbn [app]. constructor; [|exact IH]. intros K. apply met_In in K. destruct K as (i' & l' & b' & Hi' & E' & _).
  apply N1. replace i with i'; [exact Hi'|]. apply (numbered_unique bs H 0 i' i (k, l') (k, l) b E' E eq_refl); [cbn [fst]; rewrite Nat.sub_0_r; exact Eb|exact Ei].
Qed.
(** The blocks that stay. *)
Definition staying (M : list nat) (bs : list tblock) : list tblock := flat_map (item_at bs) (filter (fun k => negb (memb k M)) (seq 0 (length bs))).

Lemma split_perm bs M : NoDup M -> (forall k, In k M -> (k < length bs)%nat) -> Permutation bs (flat_map (item_at bs) M ++ staying M bs).
Proof.
  intros N R. apply Permutation_sym. unfold staying. rewrite <- flat_map_app. apply select_perm. apply NoDup_Permutation; [|apply seq_NoDup|].
  - clear R. generalize (seq_NoDup (length bs) 0). generalize (seq 0 (length bs)). intros s Ns.
    assert (G : forall P, NoDup P -> (forall x, In x P -> In x M) -> NoDup (P ++ filter (fun k => negb (memb k M)) s)).
    { induction P as [|p t IH]; intros NP HP; cbn [app]; [apply NoDup_filter; exact Ns|]. inversion NP as [|? ? A B]. subst. constructor.
      - rewrite in_app_iff. intros [K|K]; [contradiction|]. apply filter_In in K. destruct K as [_ K]. apply negb_true_iff in K. apply memb_nIn in K. apply K, HP. left. reflexivity.
      - apply IH; [exact B|]. intros x Hx. apply HP. right. exact Hx. }
    apply G; auto.
  - intros x. rewrite in_app_iff, filter_In, in_seq, negb_true_iff, memb_nIn. split.
    + intros [K|[K _]]; [specialize (R x K); lia|exact K].
    + intros K. destruct (in_dec Nat.eq_dec x M); [left; assumption|right; split; assumption].
Qed.
Fixpoint unmarked (M : list nat) (k : nat) (bs : list tblock) : list tblock :=
  match bs with [] => [] | b :: t => (if memb k M then [] else [b]) ++ unmarked M (S k) t end.
Lemma staying_unmarked M bs : staying M bs = unmarked M 0 bs.
Proof.
  unfold staying. assert (G : forall l2 pre, flat_map (item_at (pre ++ l2)) (filter (fun k => negb (memb k M)) (seq (length pre) (length l2))) = unmarked M (length pre) l2).
  { induction l2 as [|x t IH]; intros pre; [reflexivity|]. cbn [length seq filter unmarked].
    assert (E : flat_map (item_at (pre ++ x :: t)) (filter (fun k => negb (memb k M)) (seq (S (length pre)) (length t))) = unmarked M (S (length pre)) t).
    { specialize (IH (pre ++ [x])). rewrite <- app_assoc in IH. cbn [app] in IH. rewrite app_length in IH. cbn [length] in IH. rewrite Nat.add_1_r in IH. exact IH. }
    destruct (memb (length pre) M); cbn [negb flat_map app]; [exact E|]. rewrite E. unfold item_at. rewrite nth_error_app2 by lia. rewrite Nat.sub_diag. reflexivity. }
  exact (G bs []).
Qed.
Lemma clear_all_kept M bs : forall k, filter b_bool (clear_all M k bs) = filter b_bool (unmarked M k bs).
Proof.
  induction bs as [|b t IH]; intros k; [reflexivity|]. cbn [clear_all unmarked]. unfold cleared. destruct (memb k M); cbn [app filter].
  - unfold b_bool at 1. cbn [b_bbox]. replace (rect_bool (rround rect0)) with false by (vm_compute; reflexivity). apply IH.
  - rewrite IH. reflexivity.
Qed.
Lemma nth_ext_error {A} (l m : list A) : (forall j, nth_error l j = nth_error m j) -> l = m.
Proof.
  revert m. induction l as [|x t IH]; intros [|y u] H; [reflexivity|specialize (H 0%nat); discriminate|specialize (H 0%nat); discriminate|].
  pose proof (H 0%nat) as H0. cbn in H0. injection H0 as ->. f_equal. apply IH. intros j. exact (H (S j)).
Qed.
Lemma NoDup_concat_filter {A} (p : list A -> bool) gs : NoDup (concat gs) -> NoDup (concat (filter p gs)).
Proof.
  induction gs as [|g t IH]; intros N; [constructor|]. cbn [concat filter] in *.
  assert (Nt : NoDup (concat t)) by (clear - N; induction g as [|x g IH]; [exact N|inversion N; auto]). specialize (IH Nt).
  destruct (p g); [|exact IH]. cbn [concat].
  assert (S : forall x, In x (concat (filter p t)) -> In x (concat t)) by (intros x Hx; apply in_concat in Hx; destruct Hx as (y & Hy & Hxy); apply filter_In in Hy; apply in_concat; exists y; tauto).
  clear - N IH S. induction g as [|x g IHg]; [exact IH|]. cbn [app] in *. inversion N as [|? ? A0 B]. subst. constructor; [|auto].
  rewrite in_app_iff in *. intros [K|K]; [apply A0; left; exact K|apply A0; right; apply S; exact K].
Qed.
(** Floating images and the rest, for any lines. *)
Lemma floats_spec order gap bs : (forall l, Permutation l (order l)) -> (forall b, In b bs -> b_img b = true -> (length (b_lines b) <= 1)%nat) ->
  exists gs M, let ls := numbered 0 bs in
    group_by_connectivity order (- gap) (- gap) (map (fun p => ln_bbox (snd p)) ls) = Some gs /\
    M = met ls bs (concat (filter (fun g => Nat.ltb 1 (List.length g)) gs)) /\ NoDup M /\
    identify_floats order gap bs = Some (map image_of (flat_map (item_at bs) M), clear_all M 0 bs) /\
    Permutation bs (flat_map (item_at bs) M ++ staying M bs) /\
    (forall b, In b (flat_map (item_at bs) M) -> b_img b = true).
Proof.
  intros Ho H1. set (ls := numbered 0 bs).
  destruct (groups_partition order Ho (- gap) (- gap) (map (fun p => ln_bbox (snd p)) ls)) as (gs & G1 & G2 & G3 & G4).
  set (todo := concat (filter (fun g => Nat.ltb 1 (List.length g)) gs)).
  assert (Nt : NoDup todo).
  { apply NoDup_concat_filter. exact G2. }
  exists gs, (met ls bs todo). cbv zeta. split; [exact G1|]. split; [reflexivity|].
  assert (NM : NoDup (met ls bs todo)) by (apply met_NoDup; assumption).
  assert (RM : forall k, In k (met ls bs todo) -> (k < length bs)%nat).
  { intros k Hk. apply met_In in Hk. destruct Hk as (i & l & b & _ & _ & E & _). apply nth_error_Some. congruence. }
  split; [exact NM|]. split; [|split].
  - unfold identify_floats. fold ls. rewrite G1. f_equal. fold todo. pose proof (float_loop_spec ls todo bs) as S. destruct (float_loop ls todo bs) as [fl r]. destruct S as (-> & _ & R).
    f_equal. apply nth_ext_error. intros j. rewrite R, nth_clear_all. reflexivity.
  - apply split_perm; assumption.
  - intros b Hb. apply in_flat_map in Hb. destruct Hb as (k & Hk & Hb). apply met_In in Hk. destruct Hk as (i & l & c & _ & _ & E & Ei).
    unfold item_at in Hb. rewrite E in Hb. destruct Hb as [<-|[]]. exact Ei.
Qed.

(** * Joining *)
Lemma kept_lost thr pre rest kept : kept_lines thr pre rest kept ->
  exists lost, Permutation rest (kept ++ lost) /\ forall l, In l lost -> overlaps_another thr (pre :: rest) l.
Proof.
  induction 1 as [pre|pre l t k O K (lost & P & H)|pre l t k O K (lost & P & H)].
  - exists []. split; [constructor|intros l []].
  - exists (l :: lost). split; [apply Permutation_cons_app; exact P|]. intros x [<-|Hx].
    + exists pre, t. split; [reflexivity|exact O].
    + destruct (H x Hx) as (p & r & P' & O'). exists p, (pre :: r). split; [|exact O'].
      eapply Permutation_trans; [apply perm_skip; exact P'|]. eapply Permutation_trans; [apply perm_swap|]. apply perm_skip. apply perm_swap.
  - exists lost. split; [cbn; apply perm_skip; exact P|]. intros x Hx. destruct (H x Hx) as (p & r & P' & O'). exists p, (pre :: r). split; [|exact O'].
    eapply Permutation_trans; [apply perm_skip; exact P'|]. eapply Permutation_trans; [apply perm_swap|]. apply perm_skip. apply perm_swap.
Qed.
Lemma overlaps_perm thr ls ls' l : Permutation ls ls' -> overlaps_another thr ls l -> overlaps_another thr ls' l.
Proof. intros P (p & r & H & O). exists p, r. split; [|exact O]. eapply Permutation_trans; [apply Permutation_sym; exact P|exact H]. Qed.
Lemma overlaps_more thr ls more l : overlaps_another thr ls l -> overlaps_another thr (ls ++ more) l.
Proof. intros (p & r & H & O). exists p, (r ++ more). split; [|exact O]. apply (Permutation_app_tail more) in H. exact H. Qed.
Lemma join_lost thr merging ls : 1 # 1000000 < thr -> (forall l, In l ls -> normal_line l) ->
  exists lost, Permutation (flat_map ln_spans ls) (flat_map ln_spans (lines_join thr merging ls) ++ flat_map ln_spans lost) /\
    (forall l, In l lost -> In l ls /\ overlaps_another thr ls l).
Proof.
  intros T N. destruct (lines_sort ls) as [|l0 rest] eqn:E.
  - assert (ls = []) as -> by (apply Permutation_nil; rewrite <- E; apply Permutation_sym, lines_sort_perm).
    exists []. split; [constructor|intros l []].
  - destruct (C25_join thr merging ls l0 rest T N E) as (K & gs & K1 & K2 & K3 & _).
    destruct (kept_lost _ _ _ _ K1) as (lost & P & H). exists lost. pose proof (lines_sort_perm ls) as PS. rewrite E in PS. split.
    + eapply Permutation_trans; [apply Permutation_flat_map; exact PS|]. cbn [flat_map].
      eapply Permutation_trans; [apply Permutation_app_head; apply Permutation_flat_map; exact P|]. rewrite flat_map_app, app_assoc. apply Permutation_app_tail.
      change (ln_spans l0 ++ flat_map ln_spans K) with (flat_map ln_spans (l0 :: K)). rewrite <- K2. clear - K3.
      induction K3 as [|r g rs gs (S & _) H IH]; [constructor|]. cbn [flat_map concat]. rewrite flat_map_app, S. apply Permutation_app; [|exact IH].
      rewrite flat_map_concat_map. apply Permutation_refl.
    + intros l Hl. split.
      * eapply Permutation_in; [apply Permutation_sym; exact PS|]. right. eapply Permutation_in; [apply Permutation_sym; exact P|]. apply in_or_app. right. exact Hl.
      * eapply overlaps_perm; [apply Permutation_sym; exact PS|]. apply H. exact Hl.
Qed.
(** Boxes only grow. *)
Lemma grow_covers r b : box r -> exists r', union_bbox r b = r' /\ Rect.covers r' r /\ rect_decimal r'.
Proof.
  intros (P & D). exists (union_bbox r b). split; [reflexivity|]. split; [|apply rround_decimal].
  assert (C : Rect.covers (runion r b) r).
  { unfold runion. destruct (rect_empty b); [apply covers_refl|]. rewrite (proper_nonempty r P). unfold Rect.covers, qmin, qmax; cbn [rx0 ry0 rx1 ry1]. 
    repeat split; qcases; lra. }
  destruct C as (C1 & C2 & C3 & C4). destruct D as (D1 & D2 & D3 & D4). unfold union_bbox, rround, Rect.covers; cbn [rx0 ry0 rx1 ry1]. unfold round1.
  repeat split.
  - rewrite <- (round_p_fixed 10 _ D1). apply round_p_mono. exact C1.
  - rewrite <- (round_p_fixed 10 _ D2). apply round_p_mono. exact C2.
  - rewrite <- (round_p_fixed 10 _ D3) at 1. apply round_p_mono. exact C3.
  - rewrite <- (round_p_fixed 10 _ D4) at 1. apply round_p_mono. exact C4.
Qed.
Lemma grow_all (ls : list line) : forall r, box r -> box (fold_left (fun r l => union_bbox r (ln_bbox l)) ls r).
Proof.
  induction ls as [|l t IH]; intros r B; cbn [fold_left]; [exact B|]. apply IH. destruct (grow_covers r (ln_bbox l) B) as (r' & <- & (C1 & C2 & C3 & C4) & D).
  destruct B as ((P1 & P2) & _). split; [split; lra|exact D].
Qed.
