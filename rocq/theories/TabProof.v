(** Lines that are not joined; the clean-up of a page with a table. *)
From Verif Require Import GeomProof AssignSpec AssignProof InterProof GraphProof TextProof TextProps PySort FlowModel FlowSpec FlowProof.
From Verif Require Import CleanSpec CleanProof CleanProof2 CleanProof3 CleanProps BorderProof3.
From Verif Require Import WholeSpec.
From Verif Require Import CleanModel CleanSpec WholeProof WholeProof2.
From Verif Require Import GraphSpec.
From Verif Require TabSpec.
From Coq Require Import Lia Lqa Permutation Sorting.Sorted Relations.
Notation length := List.length.
Notation pairwise := BorderProof3.pairwise.
Open Scope Q_scope.

(** One beneath the other, or a gap of more than [m] between them. *)
Definition clear_of (m : Q) (a b : line) : Prop :=
  beneath a b \/ beneath b a \/ rx1 (ln_bbox a) + m < rx0 (ln_bbox b) \/ rx1 (ln_bbox b) + m < rx0 (ln_bbox a).
Lemma clear_sym m a b : clear_of m a b -> clear_of m b a. Proof. unfold clear_of. tauto. Qed.
Lemma clear_apart m a b : 0 <= m -> clear_of m a b -> AssignSpec.apart (ln_bbox b) (ln_bbox a).
Proof. intros M. unfold clear_of, beneath, AssignSpec.apart. intros [H|[H|[H|H]]]; [right; right; right|right; right; left|right; left|left]; lra. Qed.
Lemma clear_overlap m thr a b : 0 <= m -> 1 # 1000000 < thr -> flat_line a -> flat_line b -> clear_of m a b ->
  match get_main_bbox (ln_bbox b) (ln_bbox a) thr with Some m => rect_bool m | None => false end = false.
Proof.
  intros M T Ha Hb C. destruct (match get_main_bbox (ln_bbox b) (ln_bbox a) thr with Some m => rect_bool m | None => false end) eqn:E; [|reflexivity]. exfalso.
  apply (overlap_test thr b a T (proj1 (proj1 Hb)) (proj1 (proj1 Ha))) in E. destruct E as [E _].
  rewrite (shared_area _ _ (proj1 (proj1 Hb)) (proj1 (proj1 Ha))) in E.
  pose proof (shared_apart _ _ (clear_apart m a b M C)) as Z. lra.
Qed.
Lemma clear_row m a b : 0 <= m -> flat_line a -> flat_line b -> clear_of m a b -> negb (same_row b a) || qlt m (qabs (rx0 (ln_bbox b) - rx1 (ln_bbox a))) = true.
Proof.
  intros M Ha Hb [C|[C|C]].
  - rewrite (proj2 (not_row a b Ha Hb C)). reflexivity.
  - rewrite (proj1 (not_row b a Hb Ha C)). reflexivity.
  - apply orb_true_iff. right. apply qlt_iff. destruct (flat_ext a Ha) as [_ A], (flat_ext b Hb) as [_ B]. unfold qabs. qcases; lra.
Qed.
Lemma join_loop_clear thr m : 0 <= m -> 1 # 1000000 < thr -> forall t pre cand out, flat_line pre -> (forall l, In l t -> flat_line l) -> pairwise (clear_of m) (pre :: t) ->
  join_loop thr m pre t cand out = out ++ keep_lines (merged_line cand) ++ t.
Proof.
  intros M T. induction t as [|l t IH]; intros pre cand out Hp Ht S; [cbn [join_loop]; rewrite app_nil_r; reflexivity|].
  assert (Hl : flat_line l) by (apply Ht; left; reflexivity). inversion S as [|? ? F S1]; subst. pose proof (F l (or_introl eq_refl)) as Pl.
  cbn [join_loop]. rewrite (clear_overlap m thr pre l M T Hp Hl Pl), (clear_row m pre l M Hp Hl Pl).
  rewrite IH; [|exact Hl|intros x Hx; apply Ht; right; exact Hx|exact S1]. cbn [merged_line keep_lines filter app]. unfold keep_lines at 2. cbn [filter].
  rewrite (normal_bool l (proj1 Hl)). rewrite <- !app_assoc. reflexivity.
Qed.
Lemma lines_join_clear thr m ls : 0 <= m -> 1 # 1000000 < thr -> (forall l, In l ls -> flat_line l) -> pairwise (clear_of m) ls -> lines_join thr m ls = lines_sort ls.
Proof.
  intros M T H S. pose proof (lines_sort_perm ls) as P. unfold lines_join.
  assert (H' : forall l, In l (lines_sort ls) -> flat_line l) by (intros l Hl; apply H; eapply Permutation_in; [apply Permutation_sym, P|exact Hl]).
  apply (pairwise_perm (clear_of m) (clear_sym m) _ _ P) in S. destruct (lines_sort ls) as [|l t]; [reflexivity|].
  assert (K : forall x : list line, (forall l, In l x -> flat_line l) -> keep_lines x = x) by (intros x Hx; apply keep_all; intros y Hy; apply normal_bool; exact (proj1 (Hx y Hy))).
  rewrite join_loop_clear; [|exact M|exact T|apply H'; left; reflexivity|intros x Hx; apply H'; right; exact Hx|exact S].
  cbn [app merged_line map concat]. unfold line_add_all. cbn [fold_left]. rewrite (K [l]); [|intros x [<-|[]]; apply H'; left; reflexivity]. apply (K (l :: t)). exact H'.
Qed.

(** Groups stay on one side of a property that related elements share. *)
Lemma group_shared {A} (f : A -> A -> bool) order (P : A -> Prop) ls gs : (forall l, Permutation l (order l)) -> group f order ls = Some gs ->
  (forall a b, In a ls -> In b ls -> f a b = true -> (P a <-> P b)) -> forall g a b, In g gs -> In a g -> In b g -> P a -> P b.
Proof.
  intros Ho E H g a b Hg Ha Hb Pa. unfold group in E. destruct (group_indexes_spec f order Ho ls) as (gi & G1 & _ & _ & _ & G5). rewrite G1 in E. injection E as <-.
  apply in_map_iff in Hg. destruct Hg as (grp & <- & Hg). apply in_flat_map in Ha. destruct Ha as (i & Hi & Ea). apply in_flat_map in Hb. destruct Hb as (j & Hj & Eb).
  unfold item_at in Ea, Eb. destruct (nth_error ls i) as [x|] eqn:Ei; [destruct Ea as [->|[]]|destruct Ea]. destruct (nth_error ls j) as [y|] eqn:Ej; [destruct Eb as [->|[]]|destruct Eb].
  assert (C : chained f ls i j) by (apply (G5 grp i j Hg Hi), Hj). clear - C Ei Ej H Pa. apply clos_rt_rt1n in C. revert a Ei Pa. induction C as [i|i k j S C IH]; intros a Ei Pa; [congruence|].
  assert (X : exists c, nth_error ls k = Some c /\ (P a <-> P c)).
  { destruct S as [(_ & x & y & Hx & Hy & E)|(_ & x & y & Hx & Hy & E)].
    - rewrite Ei in Hx. injection Hx as <-. exists y. split; [exact Hy|]. apply H; [eapply nth_error_In; exact Ei|eapply nth_error_In; exact Hy|exact E].
    - rewrite Ei in Hy. injection Hy as <-. exists x. split; [exact Hx|]. apply iff_sym, H; [eapply nth_error_In; exact Hx|eapply nth_error_In; exact Ei|exact E]. }
  destruct X as (c & Ec & Pc). apply (IH Ej c Ec). apply Pc, Pa.
Qed.
Lemma pairwise_part {A} (R : A -> A -> Prop) (l m r : list A) : (forall a b, R a b -> R b a) -> pairwise R l -> Permutation l (m ++ r) -> pairwise R m.
Proof.
  intros Sy S P. apply (pairwise_perm R Sy _ _ P) in S. clear P l. induction m as [|x m IH]; [constructor|]. cbn [app] in S. inversion S as [|? ? F S1]; subst. constructor; [|apply IH, S1]. intros y Hy. apply F, in_or_app. left. exact Hy.
Qed.
Lemma joined_clear thr m gs : 0 <= m -> 1 # 1000000 < thr -> (forall b, In b (concat gs) -> b_bool b = true /\ forall l, In l (b_lines b) -> flat_line l) ->
  (forall g, In g gs -> pairwise (clear_of m) (lines_in g)) ->
  Permutation (lines_in (filter b_bool (map (joined_block thr m) gs))) (lines_in (concat gs)) /\
  forall b, In b (filter b_bool (map (joined_block thr m) gs)) -> b_img b = false /\ box (b_bbox b) /\ b_lines b <> [] /\
    (exists g, In g gs /\ Permutation (lines_in g) (b_lines b)) /\ exists m, b_bbox b = hull m /\ forall l, In l m <-> In l (b_lines b).
Proof.
  intros M T. induction gs as [|g gs IH]; intros B St; [split; [constructor|intros b []]|].
  destruct IH as [IP IB]; [intros b Hb; apply B; cbn [concat]; apply in_or_app; right; exact Hb|intros g' Hg; apply St; right; exact Hg|].
  assert (Bg : forall b, In b g -> b_bool b = true /\ forall l, In l (b_lines b) -> flat_line l) by (intros b Hb; apply B; cbn [concat]; apply in_or_app; left; exact Hb).
  assert (Fl : forall l, In l (lines_in g) -> flat_line l) by (intros l Hl; apply in_flat_map in Hl; destruct Hl as (b & Hb & Hl); exact (proj2 (Bg b Hb) l Hl)).
  destruct (joined_truthy thr m g) as [J1 J2]; [intros b l Hb _ Hl; exact (proj1 (proj2 (Bg b Hb) l Hl))|].
  rewrite (filter_all b_bool g (fun b Hb => proj1 (Bg b Hb))) in J1, J2.
  rewrite (lines_join_clear thr m (lines_in g) M T Fl (St g (or_introl eq_refl))) in J2.
  pose proof (lines_sort_perm (lines_in g)) as Ps.
  cbn [map filter concat]. rewrite lines_in_app, J1. destruct (lines_in g) as [|l0 r0] eqn:El.
  - split; [exact IP|]. intros b Hb. destruct (IB b Hb) as (A1 & A2 & A3 & (g' & A4 & A5) & A6). split; [exact A1|]. split; [exact A2|]. split; [exact A3|]. split; [exists g'; split; [right; exact A4|exact A5]|exact A6].
  - split.
    + change (joined_block thr m g :: filter b_bool (map (joined_block thr m) gs)) with ([joined_block thr m g] ++ filter b_bool (map (joined_block thr m) gs)).
      rewrite lines_in_app. apply Permutation_app; [|exact IP]. unfold lines_in at 1. cbn [flat_map]. rewrite app_nil_r, J2. apply Permutation_sym, Ps.
    + intros b [<-|Hb].
      2:{ destruct (IB b Hb) as (A1 & A2 & A3 & (g' & A4 & A5) & A6). split; [exact A1|]. split; [exact A2|]. split; [exact A3|]. split; [exists g'; split; [right; exact A4|exact A5]|exact A6]. }
      split; [reflexivity|]. split.
      * apply (joined_box thr m g l0); [intros b Hb; apply (Bg b Hb)|intros l Hl; apply Fl; rewrite El in Hl; exact Hl|rewrite El; left; reflexivity].
      * rewrite J2. split; [intros E; rewrite E in Ps; apply Permutation_sym, Permutation_nil in Ps; discriminate Ps|]. split; [exists g; split; [left; reflexivity|rewrite El; exact Ps]|].
        exists (lines_in g ++ lines_sort (lines_in g)). rewrite El. split.
        -- unfold joined_block in J2 |- *. cbn [b_bbox b_lines] in J2 |- *. rewrite J2. rewrite (filter_all b_bool g (fun b Hb => proj1 (Bg b Hb))). fold (lines_in g). rewrite (normal_filter (lines_in g)) by (intros l Hl; apply Fl; rewrite El in Hl; exact Hl). rewrite El. unfold hull. rewrite fold_left_app. reflexivity.
        -- intros l. rewrite in_app_iff. split; [intros [H|H]; [eapply Permutation_in; [exact Ps|exact H]|exact H]|intros H; right; exact H].
Qed.
(** Lines and blocks of a page after the clean-up, if no two lines are joined. *)
Lemma clean_clear order gap thr m page bs ts : (forall l, Permutation l (order l)) -> 0 <= m -> 1 # 1000000 < thr ->
  proper page -> (forall b, In b bs -> proper (b_bbox b) /\ to_keep page b /\ (b_img b = true -> wrapped_image b /\ TabSpec.wide_lines gap ts)) -> Permutation (map block_strip bs) ts -> Forall paragraph ts -> pairwise (clear_of m) (lines_in ts) ->
  exists out, clean_up order page gap thr m bs = Some ([], out) /\ Permutation (lines_in out) (lines_in ts) /\
    (forall b, In b out -> b_img b = false /\ box (b_bbox b) /\ b_lines b <> [] /\ (exists m, b_bbox b = hull m /\ forall l, In l m <-> In l (b_lines b))) /\
    (forall P : tblock -> Prop, (forall a b, In a ts -> In b ts -> beside (b_bbox a) (b_bbox b) -> (P a <-> P b)) ->
      forall b l k, In b out -> In l (b_lines b) -> In k (b_lines b) -> exists x y, In x ts /\ In y ts /\ In l (b_lines x) /\ In k (b_lines y) /\ (P x -> P y)) /\
    (forall a b rest, Permutation out (a :: b :: rest) -> ~ beside (b_bbox a) (b_bbox b)).
Proof.
  intros Ho M T Pp K P Pa Td.
  assert (Pt : forall b, In b bs -> paragraph (block_strip b)).
  { intros b Hb. rewrite Forall_forall in Pa. apply Pa. eapply Permutation_in; [exact P|]. apply in_map, Hb. }
  assert (Im : forall b, In b bs -> b_img b = true -> wrapped_image b) by (intros b Hb E; apply (K b Hb), E).
  assert (Nl : forall b l, In b bs -> In l (b_lines b) -> normal_line (stripped l)).
  { intros b l Hb Hl. destruct (Pt b Hb) as (_ & _ & _ & _ & H). apply H. rewrite strip_lines. apply in_map, Hl. }
  assert (Pg : page_of page bs bs []).
  { split; [exact Pp|]. split; [intros b Hb; apply (K b Hb)|]. split; [exact Im|]. split; [rewrite app_nil_r; apply Permutation_refl|]. split; [intros b Hb; apply (K b Hb)|]. split; [intros b []|exact Nl]. }
  destruct (clean_steps order page gap thr m bs bs [] Ho Pp (fun b Hb => proj1 (K b Hb)) Im T) as (sorted & gs & M0 & out & PS & Gs & EM & CU & J & FB & SP & I & TS & NS & Back);
    [rewrite app_nil_r; apply Permutation_refl|intros b Hb; apply (K b Hb)|intros b []|exact Nl|].
  assert (E0 : M0 = []).
  { destruct M0 as [|k M0]; [reflexivity|]. exfalso. assert (Hk : In k (met (numbered 0 sorted) sorted (concat (filter (fun g => Nat.ltb 1 (List.length g)) gs)))) by (rewrite <- EM; left; reflexivity).
    pose proof Hk as Hk'. apply met_In in Hk'. destruct Hk' as (i0 & l0 & c & _ & _ & E & Ib). pose proof (nth_error_In _ _ E) as Hc. destruct (Back c Hc) as (b0 & Hb & _ & Eb).
    assert (Ib0 : b_img b0 = true) by (rewrite Eb, img_strip in Ib; exact Ib). destruct (K b0 Hb) as (_ & _ & X). destruct (X Ib0) as (_ & Gp & Wd).
    assert (Wc : wrapped_image c) by (rewrite Forall_forall in Pa; apply (Pa c); [eapply Permutation_in; [exact P|]; rewrite Eb; apply in_map, Hb|exact Ib]). destruct Wc as (l & k0 & q0 & El & _).
    assert (HB : forall c l, In c sorted -> In l (b_lines c) -> ln_bool l = true) by (intros c1 l1 H1 H2; apply normal_bool; eapply NS; eassumption).
    destruct (floats_linked order gap sorted gs Ho HB Gs c l (ex_intro _ k (conj Hk E)) El) as (i & j & l' & Nij & Lk & Ei & Ej).
    assert (PLs : Permutation (lines_in sorted) (lines_in ts)) by (unfold lines_in; apply Permutation_flat_map; eapply Permutation_trans; [apply Permutation_sym, PS|exact P]).
    destruct (two_positions _ i j l l' Nij Ei Ej) as (rest & PR). apply (Permutation_trans (Permutation_sym PLs)) in PR.
    assert (Cl : clear_of m l l') by (apply (pairwise_perm (clear_of m) (clear_sym m) _ _ PR) in Td; clear - Td; inversion Td as [|? ? F _]; subst; apply F; left; reflexivity).
    assert (Nt : forall p q u v, clear_of m u v -> nth_error (lines_in sorted) p = Some u -> nth_error (lines_in sorted) q = Some v -> In (p, q) (report (map (shrunk gap) (lines_in sorted))) -> False).
    { intros p q u v C Eu Ev R. destruct (report_sound (map (shrunk gap) (lines_in sorted)) (p, q)) as (x & y & Ex & Ey & Tc); [|exact R|].
      - intros z Hz. apply in_map_iff in Hz. destruct Hz as (w & <- & Hw). apply (Permutation_in _ PLs) in Hw. specialize (Wd w Hw). unfold shrunk, widen, rplus. cbn [rx0 rx1]. lra.
      - destruct (report_heights _ _ R) as (x' & y' & Ex' & Ey' & Th). cbn [fst snd] in *. rewrite nth_error_map, Eu in Ex, Ex'. rewrite nth_error_map, Ev in Ey, Ey'. cbn in Ex, Ey, Ex', Ey'. injection Ex as <-. injection Ey as <-. injection Ex' as <-. injection Ey' as <-.
        assert (Yu : ry0 (ln_bbox u) < ry1 (ln_bbox u) /\ ry0 (ln_bbox v) < ry1 (ln_bbox v)).
        { apply nth_error_In, (in_flat_map b_lines) in Eu. apply nth_error_In, (in_flat_map b_lines) in Ev. destruct Eu as (cu & Hu & Lu), Ev as (cv & Hv & Lv). split; [apply (NS cu u Hu Lu)|apply (NS cv v Hv Lv)]. }
        unfold shrunk, widen, rplus, touching in Tc, Th. cbn [rx0 rx1 ry0 ry1] in Tc, Th. unfold clear_of, beneath in C. destruct C as [C|[C|[C|C]]]; destruct Th as [T3|T3]; lra. }
    destruct Lk as [Lk|Lk]; [exact (Nt i j l l' Cl Ei Ej Lk)|exact (Nt j i l' l (clear_sym m _ _ Cl) Ej Ei Lk)]. }
  subst M0. rewrite E0 in CU, J, FB. rewrite clear_none in J, FB. cbn [flat_map map] in CU. clear E0 I SP FB.
  exists out. split; [exact CU|].
  assert (Ns : forall c, In c sorted -> paragraph c) by (intros c Hc; destruct (Back c Hc) as (b & Hb & _ & ->); exact (Pt b Hb)).
  assert (Fl : forall c l, In c sorted -> In l (b_lines c) -> flat_line l) by (intros c l Hc Hl; destruct (Ns c Hc) as (_ & _ & _ & _ & H); exact (H l Hl)).
  assert (PST : Permutation sorted ts) by (eapply Permutation_trans; [apply Permutation_sym, PS|exact P]).
  assert (PL : Permutation (lines_in sorted) (lines_in ts)) by (unfold lines_in; apply Permutation_flat_map, PST).
  unfold join_horizontally in J. destruct (group_perm side_by_side order Ho sorted) as (gr & Eg & Pgr). rewrite Eg in J. injection J as <-.
  destruct (joined_clear thr m gr M T) as [J1 J2].
  - intros b Hb. assert (Hs : In b sorted) by (eapply Permutation_in; [exact Pgr|exact Hb]). split; [apply TS, Hs|intros l; apply Fl, Hs].
  - intros g Hg. destruct (concat_part gr g Hg) as (rest & Pr). apply (pairwise_part (clear_of m) (lines_in ts) (lines_in g) (lines_in rest) (clear_sym m) Td).
    rewrite <- lines_in_app. eapply Permutation_trans; [apply Permutation_sym, PL|]. unfold lines_in. apply Permutation_flat_map. eapply Permutation_trans; [apply Permutation_sym, Pgr|exact Pr].
  - split; [|split; [|split]].
    + eapply Permutation_trans; [exact J1|]. eapply Permutation_trans; [|exact PL]. unfold lines_in. apply Permutation_flat_map. exact Pgr.
    + intros b Hb. destruct (J2 b Hb) as (A1 & A2 & A3 & _ & A5). split; [exact A1|]. split; [exact A2|]. split; [exact A3|exact A5].
    + intros Q HQ b l k Hb Hl Hk. destruct (J2 b Hb) as (_ & _ & _ & (g & Hg & Pb) & _).
      apply (Permutation_in _ (Permutation_sym Pb)), in_flat_map in Hl. destruct Hl as (x & Hx & Hl). apply (Permutation_in _ (Permutation_sym Pb)), in_flat_map in Hk. destruct Hk as (y & Hy & Hk).
      assert (Sub : forall z, In z g -> In z sorted) by (intros z Hz; eapply Permutation_in; [exact Pgr|]; apply in_concat; exists g; split; assumption).
      exists x, y. split; [eapply Permutation_in; [exact PST|apply Sub, Hx]|]. split; [eapply Permutation_in; [exact PST|apply Sub, Hy]|]. split; [exact Hl|]. split; [exact Hk|].
      refine (group_shared side_by_side order Q sorted gr Ho Eg _ g x y Hg Hx Hy). intros a c Ha Hc E. apply HQ; [eapply Permutation_in; [exact PST|exact Ha]|eapply Permutation_in; [exact PST|exact Hc]|].
      destruct (Ns a Ha) as (_ & (_ & (_ & Va) & _) & _), (Ns c Hc) as (_ & (_ & (_ & Vc) & _) & _).
      unfold side_by_side, horizontally_align_with, b_elem, elem_bool in E. cbn [e_bbox] in E. destruct (negb _ || negb _); [discriminate E|].
      unfold overlap_enough, lo, hi in E. apply qle_iff in E.
      exists (qmax (ry0 (b_bbox a)) (ry0 (b_bbox c))). revert E. clear - Va Vc. unfold qmin, qmax. qcases; intros E; split; split; lra.
    + apply (C60_stacked order page gap thr m bs bs [] [] _ Ho T Pg); [|exact CU]. intros b Hb. exact (proj1 (proj2 (Pt b Hb))).
Qed.
