(** C64: splitting back into the blocks of the pdf; C65: what is taken for a stream table. *)
From Verif Require Import FlowSpec FlowProof FlowProof2 FlowProof3 GraphProof TextProof GeomProof AssignProof.
From Verif Require Import GraphSpec GeomSpec.
From Verif Require CleanProps.
From Coq Require Import List Lia Permutation Relations Sorting.Sorted.
Import ListNotations.
Open Scope Q_scope.

(* ------------------------------------------------------------------ *)
(** * Flow layout *)
(** Lines of which no two are next to each other run on. *)
Theorem C64_single_lines_flow order tol sep ls : (forall l, Permutation l (order l)) -> (forall l, In l ls -> box (ln_bbox l)) ->
  (forall a b, earlier ls a b -> ~ abreast tol a b) -> is_flow_layout order tol sep ls = Some true.
Proof.
  intros Ho B H. apply flow_plain; [exact Ho|]. intros a b E. destruct (row_mate tol a b) eqn:R; [|reflexivity]. exfalso. apply (H a b E).
  destruct E as (x & y & z & ->). apply row_mate_iff; [apply B, in_or_app; right; left; reflexivity|apply B, in_or_app; right; right; apply in_or_app; right; left; reflexivity|exact R].
Qed.
Print Assumptions C64_single_lines_flow.
(** Lines next to each other that do not come from one block of the pdf do not. *)
Lemma earlier_at {A} (l : list A) a b : earlier l a b -> exists i j, (i < j)%nat /\ nth_error l i = Some a /\ nth_error l j = Some b.
Proof.
  intros (x & y & z & ->). exists (length x), (length x + S (length y))%nat. split; [lia|]. split.
  - rewrite nth_error_app2 by lia. rewrite Nat.sub_diag. reflexivity.
  - rewrite nth_error_app2 by lia. replace (length x + S (length y) - length x)%nat with (S (length y)) by lia. cbn [nth_error]. rewrite nth_error_app2 by lia. rewrite Nat.sub_diag. reflexivity.
Qed.
Theorem C64_flow_one_source order tol sep ls a b : (forall l, Permutation l (order l)) -> (forall l, In l ls -> box (ln_bbox l)) ->
  is_flow_layout order tol sep ls = Some true -> earlier ls a b -> abreast tol a b -> exists p, from_source p a /\ from_source p b.
Proof.
  intros Ho B F E H. destruct (earlier_at _ _ _ E) as (i & j & Lt & Ha & Hb). apply (flow_sound order Ho tol sep ls i j a b F Ha Hb); [|lia].
  apply rt_step. left. split; [exact Lt|]. exists a, b. split; [exact Ha|]. split; [exact Hb|]. apply row_mate_iff; [apply B; eapply nth_error_In; exact Ha|apply B; eapply nth_error_In; exact Hb|exact H].
Qed.
Print Assumptions C64_flow_one_source.
(** Two lines that are next to each other run on exactly if they come from one block of the pdf, are in
    the same row and are closer than [sep]. *)
Theorem C64_two_lines order tol sep a b : (forall l, Permutation l (order l)) -> box (ln_bbox a) -> box (ln_bbox b) -> ln_dir a = LEFT_RIGHT -> ln_dir b = LEFT_RIGHT -> abreast tol a b ->
  (is_flow_layout order tol sep [a; b] = Some true ->
     (exists p, from_source p a /\ from_source p b) /\ same_row a b = true /\
     (Qabs (rx0 (ln_bbox b) - rx1 (ln_bbox a)) < sep \/ Qabs (rx0 (ln_bbox a) - rx1 (ln_bbox b)) < sep)) /\
  ((exists p, from_source p a /\ from_source p b) -> same_row a b = true ->
     Qabs (rx0 (ln_bbox b) - rx1 (ln_bbox a)) < sep -> Qabs (rx0 (ln_bbox a) - rx1 (ln_bbox b)) < sep -> is_flow_layout order tol sep [a; b] = Some true).
Proof.
  intros Ho Ba Bb Da Db Hab.
  assert (Rm : row_mate tol a b = true) by (apply row_mate_iff; assumption).
  destruct (group_chain order Ho (row_mate tol) [a; b]) as (gs & E & P & Ne & C1 & C2 & C3).
  assert (Hg : exists g, gs = [g] /\ (g = [a; b] \/ g = [b; a])).
  { destruct (C1 0%nat 1%nat a b eq_refl eq_refl) as (g & Hg & Ia & Ib).
    { apply rt_step. left. split; [lia|]. exists a, b. auto. }
    destruct (C3 g Hg) as (js & Nd & Eg & Rg & _).
    (* g holds both positions *)
    assert (L : (length (concat gs) = 2)%nat) by (rewrite (Permutation_length P); reflexivity).
    assert (Lg : length g = 2%nat).
    { destruct (group_indexes_spec (row_mate tol) order Ho [a; b]) as (gi & G1 & G2 & G3 & G4 & G5). clear C1 C2 C3 Nd Eg Rg js.
      unfold GraphModel.group in E. rewrite G1 in E. injection E as <-.
      assert (H0 : In 0%nat (concat gi)) by (apply G3; cbn; lia). apply in_concat in H0. destruct H0 as (grp & Hgr & H0).
      assert (H1 : In 1%nat grp). { apply (G5 grp 0%nat 1%nat Hgr H0). apply rt_step. left. split; [lia|]. exists a, b. auto. }
      assert (All : forall grp', In grp' gi -> grp' = grp).
      { intros grp' Hgr'. destruct grp' as [|k t] eqn:Eg'; [exfalso; apply (G4 _ Hgr'); reflexivity|].
        assert (Lk : (k < 2)%nat) by (change 2%nat with (length [a; b]); apply G3; apply in_concat; exists (k :: t); split; [exact Hgr'|left; reflexivity]).
        assert (Hk : In k grp) by (destruct k as [|[|k]]; [exact H0|exact H1|lia]).
        assert (Sp : forall (gi : list (list nat)) g1 g2 x, NoDup (concat gi) -> In g1 gi -> In g2 gi -> In x g1 -> In x g2 -> g1 = g2).
        { clear. induction gi as [|y gi IH]; intros g1 g2 x Nd I1 I2 X1 X2; [destruct I1|]. cbn [concat] in Nd.
          assert (Nd' : NoDup (concat gi)) by (clear -Nd; induction y; [exact Nd|inversion Nd; subst; auto]).
          assert (Dj : forall z, In z y -> ~ In z (concat gi)).
          { clear -Nd. induction y as [|w y IH]; intros z Hz; [destruct Hz|]. cbn in Nd. inversion Nd as [|? ? N1 N2]; subst. destruct Hz as [<-|Hz]; [intros H; apply N1; apply in_or_app; right; exact H|apply IH; assumption]. }
          destruct I1 as [<-|I1], I2 as [<-|I2]; [reflexivity| | |exact (IH g1 g2 x Nd' I1 I2 X1 X2)].
          - exfalso. apply (Dj x X1). apply in_concat. exists g2. auto.
          - exfalso. apply (Dj x X2). apply in_concat. exists g1. auto. }
        apply (Sp gi (k :: t) grp k G2 Hgr' Hgr (or_introl eq_refl) Hk). }
      apply in_map_iff in Hg. destruct Hg as (grp' & <- & Hg). rewrite (All grp' Hg).
      assert (Nd : NoDup grp). { clear -G2 Hgr. induction gi as [|y gi IH]; [destruct Hgr|]. cbn [concat] in G2. destruct Hgr as [->|H].
        - clear -G2. induction grp as [|w y IH]; [constructor|]. cbn in G2. inversion G2 as [|? ? N1 N2]; subst. constructor; [intros H; apply N1; apply in_or_app; left; exact H|apply IH; exact N2].
        - apply IH; [|exact H]. clear -G2. induction y; [exact G2|inversion G2; subst; auto]. }
      assert (Bd : incl grp [0; 1]%nat). { intros k Hk. assert (Lk : (k < 2)%nat) by (change 2%nat with (length [a; b]); apply G3; apply in_concat; exists grp; auto). destruct k as [|[|k]]; cbn; auto. lia. }
      assert (Lgr : length grp = 2%nat).
      { pose proof (NoDup_incl_length Nd Bd) as U. cbn in U. assert (Nd01 : NoDup [0; 1]%nat) by (constructor; [intros [H|[]]; discriminate|constructor; [intros []|constructor]]).
        assert (I01 : incl [0; 1]%nat grp) by (intros k [<-|[<-|[]]]; assumption). pose proof (NoDup_incl_length Nd01 I01) as V. cbn in V. lia. }
      assert (E2 : forall js, incl js [0; 1]%nat -> length (flat_map (item_at [a; b]) js) = length js).
      { clear. induction js as [|k js IH]; intros H; [reflexivity|]. cbn [flat_map length]. rewrite app_length, IH by (intros x Hx; apply H; right; exact Hx).
        destruct (H k (or_introl eq_refl)) as [<-|[<-|[]]]; reflexivity. }
      rewrite E2 by exact Bd. exact Lgr. }
    exists g. apply in_split in Hg. destruct Hg as (x & y & ->). rewrite concat_app, app_length in L. cbn [concat] in L. rewrite app_length, Lg in L.
    assert (X : x = []). { destruct x as [|w x]; [reflexivity|]. exfalso. assert (w <> []) by (apply Ne; left; reflexivity). destruct w; [congruence|]. cbn in L. lia. }
    assert (Y : y = []). { destruct y as [|w y]; [reflexivity|]. exfalso. assert (w <> []) by (apply Ne; apply in_or_app; right; right; left; reflexivity). destruct w; [congruence|]. cbn [concat] in L. rewrite app_length in L. cbn in L. lia. }
    subst x y. cbn [concat app] in P. rewrite app_nil_r in P. split; [reflexivity|].
    destruct g as [|u [|v [|? ?]]]; try discriminate Lg. apply Permutation_length_2 in P. destruct P as [[-> ->]|[-> ->]]; auto. }
  destruct Hg as (g & -> & Hg). unfold is_flow_layout. change (GraphModel.group (row_mate tol) order [a; b]) with (group (row_mate tol) order [a; b]). rewrite E.
  assert (Hh : is_horizontal (lines_dir [a; b]) = true). { unfold lines_dir, coll_dir. cbn [map ln_elem e_dir forallb]. rewrite Da, Db. reflexivity. }
  rewrite Hh. cbn [forallb]. rewrite Bool.andb_true_r.
  assert (Qa : forall q, qabs q == Qabs q) by (intros q; unfold qabs; apply Qabs_case; intros; qcases; lra).
  assert (Ss : forall x y, same_source x y = true <-> exists p, from_source p x /\ from_source p y) by (intros; apply same_source_iff).
  assert (Sr : same_row a b = same_row b a) by (apply same_row_sym; apply proper_truthy; [apply Ba|apply Bb]).
  assert (Raa : same_row a a = true /\ same_row b b = true) by (split; apply same_row_self; [apply Ba|apply Bb]).
  assert (Gap : forall x y, negb (qle sep (line_gap true x y)) = true <-> Qabs (rx0 (ln_bbox y) - rx1 (ln_bbox x)) < sep).
  { intros x y. unfold line_gap. rewrite Bool.negb_true_iff. pose proof (Qa (rx0 (ln_bbox y) - rx1 (ln_bbox x))) as E0. set (q := qabs _) in *. clearbody q.
    split; [intros H; destruct (Qlt_le_dec (Qabs (rx0 (ln_bbox y) - rx1 (ln_bbox x))) sep) as [K|K]; [exact K|exfalso; assert (T : qle sep q = true) by (apply qle_iff; lra); congruence]|].
    intros H. destruct (qle sep q) eqn:T; [|reflexivity]. apply qle_iff in T. lra. }
  split.
  - intros F. injection F as F. destruct Hg as [-> | ->]; cbn [row_flows forallb gaps_small] in F; rewrite !Bool.andb_true_iff in F.
    + destruct F as (((_ & S2 & _) & (_ & R2 & _)) & G & _). split; [apply Ss in S2; destruct S2 as (p & S2 & S3); exists p; auto|]. split; [rewrite Sr; exact R2|left; apply Gap; exact G].
    + destruct F as (((_ & S2 & _) & (_ & R2 & _)) & G & _). split; [apply Ss; exact S2|]. split; [exact R2|right; apply Gap; exact G].
  - intros (p & Sa & Sb) R G1 G2. f_equal. destruct Raa as [Ra Rb]. apply Gap in G1, G2.
    assert (forall x y, from_source p x -> from_source p y -> same_source x y = true) by (intros x y; intros; apply Ss; exists p; auto).
    destruct Hg as [-> | ->]; cbn [row_flows forallb gaps_small]; rewrite ?Bool.andb_true_iff; repeat split; try (apply H; assumption); try assumption; rewrite <- Sr; assumption.
Qed.
Print Assumptions C64_two_lines.

(* ------------------------------------------------------------------ *)
(** * Splitting back *)
Lemma groups_flow order tol sep bs ids : (forall l, Permutation l (order l)) -> flow_page bs -> exists gs new out,
  split_back order ids tol sep bs = Some out /\ Permutation out (filter (fun b => negb (flows_b order tol sep b)) bs ++ new) /\
  new = source_blocks ids 0 (map lines_sort gs) /\
  Permutation (concat gs) (flat_map f_lines (filter (flows_b order tol sep) bs)) /\
  (forall g, In g gs -> g <> [] /\ (forall l, In l g -> box (ln_bbox l)) /\ forall id, exists p, forall l, In l g -> from_source p (set_pid id l)) /\
  (forall a b p, In a (concat gs) -> In b (concat gs) -> from_source p a -> from_source p b -> exists g, In g gs /\ In a g /\ In b g) /\
  StronglySorted (fun a b => reading_before (is_horizontal (coll_dir (map f_elem out))) (f_elem a) (f_elem b)) out.
Proof.
  intros Ho Pg. destruct (split_shape order Ho ids tol sep bs Pg) as (gs & E & S & Fs). cbv zeta in S, Fs.
  set (L := flat_map f_lines (filter (flows_b order tol sep) bs)) in *. set (new := source_blocks ids 0 (map lines_sort gs)) in *.
  destruct (source_groups order Ho L) as (gs' & E' & P & Ne & S1 & S2). rewrite E in E'. injection E' as <-.
  exists gs, new. eexists. split; [exact S|]. split; [apply Permutation_sym, sort_fblocks_perm|]. split; [reflexivity|]. split; [exact P|].
  assert (BL : forall l, In l L -> box (ln_bbox l)). { intros l Hl. apply in_flat_map in Hl. destruct Hl as (b & Hb & Hl). apply filter_In in Hb. destruct Pg as [_ LB]. exact (LB b l (proj1 Hb) Hl). }
  split; [|split].
  - intros g Hg. split; [apply Ne; exact Hg|]. split; [|intros id; apply S1; exact Hg]. intros l Hl. apply BL, (Permutation_in _ P), in_concat. exists g. auto.
  - intros a b p Ha Hb. apply S2; apply (Permutation_in _ P); assumption.
  - rewrite <- (coll_dir_perm (map f_elem (filter (fun b => negb (flows_b order tol sep b)) bs ++ new)) _ (Permutation_map f_elem (sort_fblocks_perm _))). apply sort_fblocks_sorted.
Qed.
(** Every line stays, once; tables and blocks whose lines do not run on stay as they are; the result is
    in reading order. *)
Theorem C64_conserved order ids tol sep bs : (forall l, Permutation l (order l)) -> flow_page bs -> exists out,
  split_back order ids tol sep bs = Some out /\
  Permutation (flat_map (fun b => map anon (f_lines b)) out) (flat_map (fun b => map anon (f_lines b)) bs) /\
  (forall b, In b bs -> ~ flowing order tol sep b -> In b out) /\
  (forall b, is_table b -> (In b out <-> In b bs)) /\
  StronglySorted (fun a b => reading_before (is_horizontal (coll_dir (map f_elem out))) (f_elem a) (f_elem b)) out.
Proof.
  intros Ho Pg. destruct (groups_flow order tol sep bs ids Ho Pg) as (gs & new & out & S & P & En & Pc & G & T & Srt). exists out. split; [exact S|].
  split; [|split; [|split; [|exact Srt]]].
  - rewrite (Permutation_flat_map _ P). rewrite flat_map_app. rewrite En, source_lines.
    assert (Bc : forall l, In l (concat (map lines_sort gs)) -> box (ln_bbox l)).
    { intros l Hl. apply in_concat in Hl. destruct Hl as (x & Hx & Hl). apply in_map_iff in Hx. destruct Hx as (g & <- & Hg). destruct (G g Hg) as (_ & B & _). apply B. apply (Permutation_in _ (Permutation_sym (lines_sort_perm g))). exact Hl. }
    rewrite (filter_boxes _ Bc).
    assert (Ps : Permutation (concat (map lines_sort gs)) (concat gs)).
    { clear. induction gs as [|g t IH]; [constructor|]. cbn [map concat]. apply Permutation_app; [apply Permutation_sym, lines_sort_perm|exact IH]. }
    rewrite (Permutation_map anon Ps), (Permutation_map anon Pc).
    assert (M : forall l, map anon (flat_map f_lines l) = flat_map (fun b => map anon (f_lines b)) l) by (induction l as [|x t IH]; [reflexivity|]; cbn [flat_map]; rewrite map_app, IH; reflexivity).
    rewrite M, <- flat_map_app. apply Permutation_flat_map.
    clear. induction bs as [|b t IH]; [constructor|]. cbn [filter]. destruct (flows_b order tol sep b); cbn [negb].
    + apply Permutation_sym, Permutation_cons_app, Permutation_sym. exact IH.
    + cbn [app]. constructor. exact IH.
  - intros b Hb N. apply (Permutation_in _ (Permutation_sym P)). apply in_or_app. left. apply filter_In. split; [exact Hb|].
    destruct (flows_b order tol sep b) eqn:F; [|reflexivity]. exfalso. apply N. apply (flows_b_iff order Ho). exact F.
  - intros b (id & bb & ->). split.
    + intros H. apply (Permutation_in _ P) in H. apply in_app_or in H. destruct H as [H|H]; [apply filter_In in H; apply H|].
      rewrite En in H. apply source_in in H. destruct H as (j & g & _ & E). discriminate.
    + intros H. apply (Permutation_in _ (Permutation_sym P)). apply in_or_app. left. apply filter_In. split; [exact H|reflexivity].
Qed.
Print Assumptions C64_conserved.
(** A block of the result is one of the old ones or holds lines of one block of the pdf only, in
    text order, and its box is the hull of their boxes. *)
Theorem C64_one_source order ids tol sep bs out b : (forall l, Permutation l (order l)) -> flow_page bs ->
  split_back order ids tol sep bs = Some out -> In b out ->
  In b bs /\ ~ flowing order tol sep b \/
  (exists p, f_lines b <> [] /\ forall l, In l (f_lines b) -> from_source p l) /\ box (f_box b) /\
  (forall l, In l (f_lines b) -> Rect.covers (f_box b) (ln_bbox l)) /\
  (forall c, (forall l, In l (f_lines b) -> Rect.covers c (ln_bbox l)) -> Rect.covers c (f_box b)) /\
  exists ls, map anon (f_lines b) = map anon (lines_sort ls).
Proof.
  intros Ho Pg E Hb. destruct (groups_flow order tol sep bs ids Ho Pg) as (gs & new & out' & S & P & En & Pc & G & T & _). rewrite S in E. injection E as <-.
  apply (Permutation_in _ P) in Hb. apply in_app_or in Hb. destruct Hb as [Hb|Hb].
  - left. apply filter_In in Hb. destruct Hb as [Hb F]. split; [exact Hb|]. intros K. apply (flows_b_iff order Ho) in K. rewrite K in F. discriminate.
  - right. rewrite En in Hb. apply source_in in Hb. destruct Hb as (j & g' & Hj & ->). rewrite nth_error_map in Hj. destruct (nth_error gs j) as [g|] eqn:Eg; [|discriminate]. injection Hj as <-.
    apply nth_error_In in Eg. destruct (G g Eg) as (Ne & B & Hp). set (id := ids (0 + j)%nat).
    assert (Bs : forall l, In l (lines_sort g) -> box (ln_bbox l)) by (intros l Hl; apply B; apply (Permutation_in _ (Permutation_sym (lines_sort_perm g))); exact Hl).
    assert (Nl : lines_sort g <> []) by (intros H; apply Ne; apply Permutation_nil; rewrite <- H; apply Permutation_sym, lines_sort_perm).
    unfold source_block. cbn [f_lines b_lines f_box b_bbox]. rewrite (filter_boxes _ Bs). set (ls := map (set_pid id) (lines_sort g)).
    assert (Nls : ls <> []) by (intros H; apply map_eq_nil in H; congruence).
    assert (Bls : forall l, In l ls -> box (ln_bbox l)) by (intros l Hl; apply in_map_iff in Hl; destruct Hl as (x & <- & Hx); rewrite set_pid_box; apply Bs; exact Hx).
    destruct (lines_hull ls Nls Bls) as (H1 & H2 & H3). split; [|split; [exact H1|split; [exact H2|split; [exact H3|]]]].
    + destruct (Hp id) as (p & Hp'). exists p. split; [exact Nls|]. intros l Hl. apply in_map_iff in Hl. destruct Hl as (x & <- & Hx). apply Hp'. apply (Permutation_in _ (Permutation_sym (lines_sort_perm g))). exact Hx.
    + exists g. unfold ls. rewrite map_map. apply map_ext. intros l. apply set_pid_anon.
Qed.
Print Assumptions C64_one_source.
(** Lines of blocks that run on which come from one block of the pdf end up in one block ... *)
Theorem C64_together order ids tol sep bs out b1 b2 l1 l2 p : (forall l, Permutation l (order l)) -> flow_page bs ->
  split_back order ids tol sep bs = Some out -> In b1 bs -> In b2 bs -> flowing order tol sep b1 -> flowing order tol sep b2 ->
  In l1 (f_lines b1) -> In l2 (f_lines b2) -> from_source p l1 -> from_source p l2 -> exists b, In b out /\ In l1 (f_lines b) /\ In l2 (f_lines b).
Proof.
  intros Ho Pg E H1 H2 F1 F2 L1 L2 P1 P2. destruct (groups_flow order tol sep bs ids Ho Pg) as (gs & new & out' & S & P & En & Pc & G & T & _). rewrite S in E. injection E as <-.
  assert (IL : forall b l, In b bs -> flowing order tol sep b -> In l (f_lines b) -> In l (concat gs)).
  { intros b l Hb F Hl. apply (Permutation_in _ (Permutation_sym Pc)). apply in_flat_map. exists b. split; [|exact Hl]. apply filter_In. split; [exact Hb|]. apply (flows_b_iff order Ho). exact F. }
  destruct (T l1 l2 p (IL b1 l1 H1 F1 L1) (IL b2 l2 H2 F2 L2) P1 P2) as (g & Hg & I1 & I2). destruct (G g Hg) as (_ & B & _).
  apply In_nth_error in Hg. destruct Hg as (j & Hj). exists (source_block (ids (0 + j)%nat) (lines_sort g)). split.
  - apply (Permutation_in _ (Permutation_sym P)). apply in_or_app. right. rewrite En. apply source_in. exists j, (lines_sort g). split; [|reflexivity]. rewrite nth_error_map, Hj. reflexivity.
  - assert (Bs : forall l, In l (lines_sort g) -> box (ln_bbox l)) by (intros l Hl; apply B; apply (Permutation_in _ (Permutation_sym (lines_sort_perm g))); exact Hl).
    unfold source_block. cbn [f_lines b_lines]. rewrite (filter_boxes _ Bs).
    split; apply in_map_iff; [exists l1|exists l2]; (split; [eapply set_pid_known; eassumption|apply (Permutation_in _ (lines_sort_perm g)); assumption]).
Qed.
Print Assumptions C64_together.
(** ... hence the splitting never puts two lines which are next to each other in one block into two. *)
Theorem C64_rows_kept order ids tol sep bs out t l1 l2 : (forall l, Permutation l (order l)) -> flow_page bs ->
  split_back order ids tol sep bs = Some out -> In (FText t) bs -> earlier (b_lines t) l1 l2 -> abreast tol l1 l2 ->
  exists b, In b out /\ In l1 (f_lines b) /\ In l2 (f_lines b).
Proof.
  intros Ho Pg E Hb Er Ab. assert (Il : In l1 (b_lines t) /\ In l2 (b_lines t)).
  { destruct Er as (x & y & z & ->). split; apply in_or_app; right; [left; reflexivity|right; apply in_or_app; right; left; reflexivity]. }
  destruct (is_flow_layout order tol sep (b_lines t)) as [[|]|] eqn:F.
  - assert (Fl : flowing order tol sep (FText t)) by (exists t; split; [reflexivity|exact F]).
    destruct (C64_flow_one_source order tol sep (b_lines t) l1 l2 Ho (fun l Hl => proj2 Pg (FText t) l Hb Hl) F Er Ab) as (p & P1 & P2).
    exact (C64_together order ids tol sep bs out (FText t) (FText t) l1 l2 p Ho Pg E Hb Hb Fl Fl (proj1 Il) (proj2 Il) P1 P2).
  - exists (FText t). split; [|exact Il]. destruct (C64_conserved order ids tol sep bs Ho Pg) as (out' & S & _ & K & _). rewrite S in E. injection E as <-.
    apply K; [exact Hb|]. intros (t' & Et & Ft). injection Et as <-. congruence.
  - exfalso. destruct (flow_total order Ho tol sep (b_lines t)) as (f & Ef). congruence.
Qed.
Print Assumptions C64_rows_kept.

(* ------------------------------------------------------------------ *)
(** * Stream table candidates *)
Lemma beside_iff b n : proper (f_box b) -> proper (f_box n) -> (beside_next b (Some n) = true <-> in_line b n).
Proof.
  intros (P1 & P2) (P3 & P4). assert (Tb : forall x, proper (f_box x) -> elem_bool (f_elem x) = true) by (intros x Px; unfold elem_bool; destruct x; cbn [f_elem b_elem e_bbox f_box] in *; apply proper_truthy; exact Px).
  unfold beside_next, horizontally_align_with. rewrite !Tb by (split; assumption). cbn [negb orb]. unfold in_line. cbv zeta.
  assert (Eb : forall x, e_bbox (f_elem x) = f_box x) by (destruct x; reflexivity). rewrite !Eb, overlap_together. set (ax := is_horizontal (e_dir (f_elem b))). clearbody ax.
  unfold together, shorter, qmin, qmax, lo, hi. destruct ax; qcases; split; intros; try (split; lra); lra.
Qed.
Lemma numbers_at order tol sep all : forall ws prev i n b, numbers order tol sep all prev ws -> nth_error ws i = Some (n, b) ->
  let side := beside_next b (option_map snd (nth_error ws (S i))) in
  let before := match i with O => prev = true | S j => exists k a, nth_error ws j = Some (k, a) /\ beside_next a (Some b) = true end in
  (before \/ f_flow order tol sep b = Some false \/ side = true -> (1 <= n)%nat) /\
  ((1 <= n)%nat -> before \/ f_flow order tol sep b = Some false \/ side = true \/ exists s, In s all /\ in_shade s b = true) /\
  (n <= 2)%nat /\ (n = 2%nat -> before /\ exists s, In s all /\ in_shade s b = true).
Proof.
  induction ws as [|(m, x) t IH]; intros prev i n b H Hi; [destruct i; discriminate|]. cbn [numbers] in H. cbv zeta in H.
  destruct H as (H1 & H2 & H3 & H4 & H5). destruct i as [|i].
  - cbn in Hi. injection Hi as <- <-. cbv zeta.
    assert (En : option_map snd (nth_error ((m, x) :: t) 1) = next_of t) by (destruct t as [|(k, y) r]; reflexivity). rewrite En. auto.
  - cbn in Hi. specialize (IH _ i n b H5 Hi). cbv zeta in IH |- *. cbn [nth_error].
    assert (Bf : match i with O => beside_next x (next_of t) = true | S j => exists k a, nth_error t j = Some (k, a) /\ beside_next a (Some b) = true end <->
                 exists k a, nth_error ((m, x) :: t) i = Some (k, a) /\ beside_next a (Some b) = true).
    { destruct i as [|i].
      - destruct t as [|(k, y) r]; [discriminate|]. cbn in Hi. injection Hi as -> ->. cbn [nth_error next_of]. split; [intros K; exists m, x; auto|intros (k & a & K & Ha); injection K as <- <-; exact Ha].
      - cbn [nth_error]. reflexivity. }
    rewrite Bf in IH. exact IH.
Qed.
(** The candidates are the runs, as long as possible, of neighbouring blocks that look like parts of a
    table or are shaded; of each block all lines are taken, once (or twice, if it is shaded and
    level with the one before). *)
Theorem C65_runs order shadings tol sep bs : (forall l, Permutation l (order l)) -> (forall b, In b bs -> proper (f_box b) /\ sub_lines b <> []) ->
  exists ws, map snd ws = bs /\ collect_stream_lines order shadings tol sep bs = Some (map run_lines (runs ws)) /\
    forall i n b, nth_error ws i = Some (n, b) ->
      (tabular order tol sep bs i -> (1 <= n)%nat) /\ ((1 <= n)%nat -> tabular order tol sep bs i \/ shaded shadings b) /\
      (n <= 2)%nat /\ (n = 2%nat -> shaded shadings b /\ exists j, i = S j /\ in_line_at bs j).
Proof.
  intros Ho H. destruct (loop_runs order Ho tol sep (dark shadings) bs (dark shadings) true [] []) as (ws & W1 & W2 & W3).
  - intros b Hb. apply H. exact Hb.
  - apply incl_refl.
  - intros p [].
  - intros _. split; reflexivity.
  - destruct bs; reflexivity.
  - exists ws. split; [exact W1|]. split; [exact W2|]. intros i n b Hi. pose proof (numbers_at order tol sep _ ws _ i n b W3 Hi) as K. cbv zeta in K.
    assert (At : forall j, nth_error bs j = option_map snd (nth_error ws j)) by (intros j; rewrite <- W1, nth_error_map; reflexivity).
    assert (Pr : forall j x, nth_error bs j = Some x -> proper (f_box x)) by (intros j x Hj; apply H; eapply nth_error_In; exact Hj).
    assert (Hbi : nth_error bs i = Some b) by (rewrite At, Hi; reflexivity).
    assert (Side : beside_next b (option_map snd (nth_error ws (S i))) = true <-> in_line_at bs i).
    { rewrite <- At. unfold in_line_at. destruct (nth_error bs (S i)) as [x|] eqn:Ex.
      - rewrite beside_iff by (eapply Pr; eassumption). split; [intros L; exists b, x; auto|intros (a & c & A1 & A2 & L)]. rewrite Hbi in A1. injection A1 as <-. injection A2 as <-. exact L.
      - cbn. split; [discriminate|intros (a & c & _ & A2 & _); discriminate]. }
    assert (Bef : match i with O => negb true = true | S j => exists k a, nth_error ws j = Some (k, a) /\ beside_next a (Some b) = true end <-> exists j, i = S j /\ in_line_at bs j).
    { destruct i as [|j]; [cbn; split; [discriminate|intros (j & E & _); discriminate]|]. split.
      - intros (k & a & Ha & L). exists j. split; [reflexivity|]. exists a, b. assert (Aj : nth_error bs j = Some a) by (rewrite At, Ha; reflexivity). split; [exact Aj|]. split; [exact Hbi|]. apply beside_iff in L; [exact L|eapply Pr; eassumption|eapply Pr; eassumption].
      - intros (j' & E & a & c & A1 & A2 & L). injection E as <-. rewrite Hbi in A2. injection A2 as <-. pose proof (Pr _ _ A1) as Pa. pose proof (At j) as Aj. rewrite A1 in Aj.
        destruct (nth_error ws j) as [(k, a')|]; [|discriminate]. injection Aj as <-. exists k, a. split; [reflexivity|]. apply beside_iff; [exact Pa|eapply Pr; eassumption|exact L]. }
    rewrite Bef, Side in K. destruct K as (K1 & K2 & K3 & K4).
    assert (Sh : (exists s, In s (dark shadings) /\ in_shade s b = true) -> shaded shadings b).
    { intros (s & Hs & Is). unfold dark in Hs. apply filter_In in Hs. destruct Hs as [Hs Hc]. unfold in_shade in Is. apply Bool.andb_true_iff in Is. destruct Is as [Hk Is]. exists s. split; [exact Hs|]. split; [|split; [|exact Is]].
      - intros Ew. rewrite Ew in Hc. discriminate.
      - destruct (sd_known s); [discriminate|reflexivity]. }
    assert (Lo : f_flow order tol sep b = Some false <-> loose order tol sep b) by (apply loose_iff).
    assert (Lb : (exists x, nth_error bs i = Some x /\ loose order tol sep x) <-> loose order tol sep b).
    { split; [intros (x & Hx & L); rewrite Hbi in Hx; injection Hx as <-; exact L|intros L; exists b; auto]. }
    unfold tabular. rewrite Lb. rewrite Lo in K1, K2. split; [|split; [|split; [exact K3|]]].
    + intros [T|[T|T]]; apply K1; tauto.
    + intros T. destruct (K2 T) as [T'|[T'|[T'|T']]]; [left; tauto|left; tauto|left; tauto|right; apply Sh; exact T'].
    + intros T. destruct (K4 T) as [T1 T2]. split; [apply Sh; exact T2|exact T1].
Qed.
Print Assumptions C65_runs.
(** Without shadings each block that looks like a part of a table is taken exactly once, others never. *)
Theorem C65_no_shading order tol sep bs : (forall l, Permutation l (order l)) -> (forall b, In b bs -> proper (f_box b) /\ sub_lines b <> []) ->
  exists ws, map snd ws = bs /\ collect_stream_lines order [] tol sep bs = Some (map run_lines (runs ws)) /\
    forall i n b, nth_error ws i = Some (n, b) -> (tabular order tol sep bs i /\ n = 1%nat) \/ (~ tabular order tol sep bs i /\ n = 0%nat).
Proof.
  intros Ho H. destruct (C65_runs order [] tol sep bs Ho H) as (ws & W1 & W2 & W3). exists ws. split; [exact W1|]. split; [exact W2|]. intros i n b Hi.
  destruct (W3 i n b Hi) as (K1 & K2 & K3 & K4). assert (Ns : ~ shaded [] b) by (intros (s & [] & _)).
  destruct n as [|[|n]].
  - right. split; [|reflexivity]. intros T. specialize (K1 T). lia.
  - left. split; [|reflexivity]. destruct (K2 ltac:(lia)) as [T|T]; [exact T|contradiction].
  - exfalso. assert (n = 0%nat) by lia. subst n. apply Ns. apply (K4 eq_refl).
Qed.
Print Assumptions C65_no_shading.
Lemma runs_zero {A} : forall ws run, (forall n (b : A), In (n, b) ws -> n = 0%nat) -> run = [] -> runs_from run ws = [].
Proof.
  induction ws as [|(n, b) t IH]; intros run H ->; [reflexivity|]. rewrite (H n b (or_introl eq_refl)). cbn [runs_from close app]. apply IH; [|reflexivity]. intros k c Hk. apply (H k c). right. exact Hk.
Qed.
(** A page of plain text - one block above the other, lines that run on, nothing shaded - has no
    candidate for a stream table. *)
Theorem C65_plain_text order shadings tol sep bs : (forall l, Permutation l (order l)) -> (forall b, In b bs -> proper (f_box b) /\ sub_lines b <> []) ->
  (forall b, In b bs -> ~ loose order tol sep b /\ ~ shaded shadings b) -> (forall i, ~ in_line_at bs i) -> collect_stream_lines order shadings tol sep bs = Some [].
Proof.
  intros Ho H P N. destruct (C65_runs order shadings tol sep bs Ho H) as (ws & W1 & W2 & W3). rewrite W2. unfold runs. rewrite runs_zero; [reflexivity| |reflexivity].
  intros n b Hb. destruct (In_nth_error _ _ Hb) as (i & Hi). destruct (W3 i n b Hi) as (_ & K2 & _ & _).
  assert (Ib : In b bs) by (rewrite <- W1; apply in_map_iff; exists (n, b); split; [reflexivity|exact Hb]). destruct (P b Ib) as [Nl Ns].
  destruct n as [|n]; [reflexivity|]. exfalso. destruct (K2 ltac:(lia)) as [[(x & Hx & L)|[T|(j & _ & T)]]|S].
  - assert (Eb : nth_error bs i = Some b) by (rewrite <- W1, nth_error_map, Hi; reflexivity). rewrite Eb in Hx. injection Hx as <-. exact (Nl L).
  - exact (N i T).
  - exact (N j T).
  - exact (Ns S).
Qed.
Print Assumptions C65_plain_text.
Lemma runs_in {A} : forall ws run (r : list (nat * A)) n b, In r (runs_from run ws) -> In (n, b) r -> (forall m c, In (m, c) run -> (1 <= m)%nat) -> (1 <= n)%nat /\ (In (n, b) run \/ In (n, b) ws).
Proof.
  induction ws as [|(m, x) t IH]; intros run r n b Hr Hb P.
  - cbn [runs_from] in Hr. destruct run; [destruct Hr|]. destruct Hr as [<-|[]]. split; [eapply P; exact Hb|left; exact Hb].
  - cbn [runs_from] in Hr. destruct m as [|m].
    + apply in_app_or in Hr. destruct Hr as [Hr|Hr].
      * destruct run; [destruct Hr|]. destruct Hr as [<-|[]]. split; [eapply P; exact Hb|left; exact Hb].
      * destruct (IH [] r n b Hr Hb ltac:(intros ? ? [])) as [L [[]|I]]. split; [exact L|right; right; exact I].
    + destruct (IH (run ++ [(S m, x)]) r n b Hr Hb) as [L [I|I]].
      * intros k c Hk. apply in_app_or in Hk. destruct Hk as [Hk|[E|[]]]; [eapply P; exact Hk|injection E as <- <-; lia].
      * apply in_app_or in I. destruct I as [I|[E|[]]]; (split; [exact L|]); [left; exact I|right; left; exact E].
      * split; [exact L|right; right; exact I].
Qed.
(** Nothing is made up: each line of a candidate is a line of a block of the page (or stands for a table
    of it), and no candidate is empty. *)
Theorem C65_only_page_lines order shadings tol sep bs gs g l : (forall l, Permutation l (order l)) -> (forall b, In b bs -> proper (f_box b) /\ sub_lines b <> []) ->
  collect_stream_lines order shadings tol sep bs = Some gs -> In g gs -> g <> [] /\ (In l g -> exists b, In b bs /\ (In l (f_lines b) \/ is_table b /\ l = table_line (f_box b))).
Proof.
  intros Ho H E Hg. destruct (C65_runs order shadings tol sep bs Ho H) as (ws & W1 & W2 & _). rewrite W2 in E. injection E as <-. apply in_map_iff in Hg. destruct Hg as (r & <- & Hr).
  assert (In' : forall n b, In (n, b) r -> (1 <= n)%nat /\ In b bs).
  { intros n b Hb. destruct (runs_in ws [] r n b Hr Hb ltac:(intros ? ? [])) as [L [[]|I]]. split; [exact L|]. rewrite <- W1. apply in_map_iff. exists (n, b). auto. }
  split.
  - intros E. apply run_lines_nil in E.
    + subst r. assert (Ne : forall ws (run : list (nat * fblock)), ~ In [] (runs_from run ws)).
      { clear. induction ws as [|([|m], x) t IH]; intros run; cbn [runs_from].
        - destruct run; [intros []|intros [K|[]]; discriminate].
        - intros K. apply in_app_or in K. destruct K as [K|K]; [destruct run; [destruct K|destruct K as [K|[]]; discriminate]|exact (IH _ K)].
        - apply IH. }
      exact (Ne _ _ Hr).
    + intros (n, b) Hb. cbn [fst snd]. destruct (In' n b Hb) as [L Ib]. split; [exact L|apply H; exact Ib].
  - intros Hl. unfold run_lines in Hl. apply in_flat_map in Hl. destruct Hl as ((n, b) & Hb & Hl). cbn [fst snd] in Hl. destruct (In' n b Hb) as [_ Ib]. exists b. split; [exact Ib|].
    apply in_concat in Hl. destruct Hl as (x & Hx & Hl). apply repeat_spec in Hx. subst x. unfold sub_lines in Hl. apply filter_In in Hl. destruct Hl as [Hl _].
    destruct b as [t|id bb]; [left; exact Hl|right]. destruct Hl as [<-|[]]. split; [exists id, bb; reflexivity|reflexivity].
Qed.
Print Assumptions C65_only_page_lines.

(* ------------------------------------------------------------------ *)
(** * Examples *)
Definition fl_line (pid : nat) (a b c d : Z) : line :=
  mkLine (mkRect (inject_Z a) (inject_Z b) (inject_Z c) (inject_Z d)) LEFT_RIGHT [] (Some pid) false.
Definition fl_text (a b c d : Z) (ls : list line) : fblock := FText (mkBlk false (mkRect (inject_Z a) (inject_Z b) (inject_Z c) (inject_Z d)) ls).
(** Two blocks of the pdf joined into one, and a table below. *)
Definition fl_page : list fblock :=
  [fl_text 50 100 500 160 [fl_line 1 50 100 400 120; fl_line 1 50 120 400 140; fl_line 2 50 140 500 160]; FTable 7 (mkRect 50 200 500 300)].
Example C64_ex_page : flow_page fl_page.
Proof.
  split.
  - intros b Hb; cbn in Hb. destruct Hb as [<-|[<-|[]]]; split; reflexivity.
  - intros b l Hb Hl; cbn in Hb. destruct Hb as [<-|[<-|[]]]; cbn in Hl; [|destruct Hl]. destruct Hl as [<-|[<-|[<-|[]]]]; (split; [split; reflexivity|apply CleanProps.int_box]).
Qed.
Example C64_ex_split : option_map (map (fun b => List.length (f_lines b))) (split_back (fun l => l) (fun k => (10 + k)%nat) (1 # 10) 5 fl_page) = Some [2; 1; 0]%nat.
Proof. vm_compute. reflexivity. Qed.
Example C64_ex_abreast : abreast (1 # 10) (fl_line 1 50 100 200 120) (fl_line 2 300 100 400 120).
Proof. split; vm_compute; [discriminate|reflexivity]. Qed.
(** Finding: lines of one block of the pdf above and below a table are brought together into one block,
    although the table is between them. *)
Theorem C64_across_table_refuted : exists bs out b t, flow_page bs /\ split_back (fun l => l) (fun k => k) (1 # 10) 5 bs = Some out /\
  In b out /\ In t bs /\ is_table t /\ (exists l1 l2, In l1 (f_lines b) /\ In l2 (f_lines b) /\ ry1 (ln_bbox l1) < ry0 (f_box t) /\ ry1 (f_box t) < ry0 (ln_bbox l2)) /\
  ~ In b bs.
Proof.
  exists [fl_text 50 100 400 120 [fl_line 1 50 100 400 120]; FTable 7 (mkRect 50 200 500 300); fl_text 50 400 400 420 [fl_line 1 50 400 400 420]].
  eexists. exists (FText (mkBlk false (mkRect (500 # 10) (1000 # 10) (4000 # 10) (4200 # 10)) [fl_line 1 50 100 400 120; fl_line 1 50 400 400 420])), (FTable 7 (mkRect 50 200 500 300)).
  split; [split|].
  - intros b Hb; cbn in Hb. destruct Hb as [<-|[<-|[<-|[]]]]; split; reflexivity.
  - intros b l Hb Hl; cbn in Hb. destruct Hb as [<-|[<-|[<-|[]]]]; cbn in Hl; try (destruct Hl); try (destruct H); subst; (split; [split; reflexivity|apply CleanProps.int_box]).
  - split; [vm_compute; reflexivity|]. split; [left; vm_compute; reflexivity|]. split; [right; left; reflexivity|]. split; [exists 7%nat; eexists; reflexivity|]. split.
    + exists (fl_line 1 50 100 400 120), (fl_line 1 50 400 400 420). split; [left; reflexivity|]. split; [right; left; reflexivity|]. split; reflexivity.
    + cbn. intros [E|[E|[E|[]]]]; discriminate.
Qed.
Print Assumptions C64_across_table_refuted.

(** Two blocks side by side, and a line of text below. *)
Definition fl_row : list fblock :=
  [fl_text 50 100 200 120 [fl_line 1 50 100 200 120]; fl_text 300 105 400 125 [fl_line 2 300 105 400 125]; fl_text 50 200 500 220 [fl_line 3 50 200 500 220]].
Example C65_ex_row : collect_stream_lines (fun l => l) [] (1 # 10) 5 fl_row = Some [[fl_line 1 50 100 200 120; fl_line 2 300 105 400 125]].
Proof. vm_compute. reflexivity. Qed.
Example C65_ex_page : forall b, In b fl_row -> proper (f_box b) /\ sub_lines b <> [].
Proof. intros b Hb; cbn in Hb. destruct Hb as [<-|[<-|[<-|[]]]]; (split; [split; reflexivity|vm_compute; discriminate]). Qed.
(** Lines far apart in one block are no running text. *)
Example C65_ex_loose : loose (fun l => l) (1 # 10) 5 (fl_text 50 100 400 120 [fl_line 1 50 100 200 120; fl_line 1 300 100 400 120]) /\
  collect_stream_lines (fun l => l) [] (1 # 10) 5 [fl_text 50 100 400 120 [fl_line 1 50 100 200 120; fl_line 1 300 100 400 120]] = Some [[fl_line 1 50 100 200 120; fl_line 1 300 100 400 120]].
Proof. split; [eexists; split; [reflexivity|vm_compute; reflexivity]|vm_compute; reflexivity]. Qed.
(** Finding: a shaded block level with the block before it is taken twice, so its lines occur twice in
    the candidate. *)
Theorem C65_once_refuted : exists shadings bs g, (forall b, In b bs -> proper (f_box b) /\ sub_lines b <> []) /\ NoDup (flat_map f_lines bs) /\
  collect_stream_lines (fun l => l) shadings (1 # 10) 5 bs = Some [g] /\ ~ NoDup g.
Proof.
  exists [mkShade (mkRect 290 90 410 130) false 0], fl_row. eexists. split; [exact C65_ex_page|]. split.
  - cbn. repeat constructor; cbn; intros K; repeat (destruct K as [K|K]; [discriminate K|]); exact K.
  - split; [vm_compute; reflexivity|]. intros N. inversion N as [|? ? _ N1]; subst. inversion N1 as [|? ? K _]; subst. apply K. left. reflexivity.
Qed.
Print Assumptions C65_once_refuted.
(** Finding: a block within a coloured rectangle is overlooked when another coloured rectangle comes
    earlier in the list (only one rectangle is skipped per block). *)
Theorem C65_shaded_overlooked_refuted : exists shadings bs b, (forall b, In b bs -> proper (f_box b) /\ sub_lines b <> []) /\ In b bs /\ shaded shadings b /\
  collect_stream_lines (fun l => l) shadings (1 # 10) 5 bs = Some [].
Proof.
  exists [mkShade (mkRect 50 10 400 20) false 0; mkShade (mkRect 40 90 510 130) false 0], [fl_text 50 100 400 120 [fl_line 1 50 100 400 120]].
  eexists. split; [|split; [left; reflexivity|split; [|vm_compute; reflexivity]]].
  - intros b [<-|[]]. split; [split; reflexivity|vm_compute; discriminate].
  - eexists. split; [right; left; reflexivity|]. split; [discriminate|]. split; [reflexivity|vm_compute; reflexivity].
Qed.
Print Assumptions C65_shaded_overlooked_refuted.
