(** Proofs for C82. *)
From Verif Require GeomProof PageModel PageSpec PageProps PageProof DocxModel.
From Verif Require Import AssignSpec AssignProof PySort LayoutModel TreeSpec TreeProof TreeProof3 TreeProof5 TreeProps LayoutProps CleanProps.
From Verif Require Import ParaSpec SpacingSpec.
From Verif Require Import WholeSpec WholeProof WholeProof2 WholeProof4 WholeProof6 WholeProof8 WholeProps PlaceSpec PlaceProof2 PlaceProof3 PlaceProof4 PlaceProps FitSpec.
From Verif Require Import CleanModel.
From Coq Require Import Lia Lqa Permutation Sorting.Sorted.
Notation length := List.length.
Open Scope Q_scope.

(** The bottom margin is the given share of the free space below everything, or less. *)
Lemma bottom_share bl sh w h ft fb e : 0 <= fb ->
  (forall x, In x (bl ++ sh) -> GeomSpec.normal_box (e_bbox x)) -> In e (bl ++ sh) -> proper (e_bbox e) -> ry1 (e_bbox e) <= h ->
  PageModel.m_bottom (PageModel.cal_margin bl sh w h ft fb) <= fb * (h - ry1 (e_bbox e)) + (1 # 20).
Proof.
  intros Hb Hn He Pe Hi. rewrite PageProof.cal_margin_eq by (intros E; rewrite E in He; destruct He). cbv zeta.
  destruct (PageProof.content_spec bl sh Hn) as (_ & C & _). cbv zeta in *.
  set (r := runion (coll_bbox bl) (coll_bbox sh)) in *. destruct (C e He Pe) as [(_ & _ & _ & C4) _].
  cbn [PageModel.m_bottom]. eapply Qle_trans; [apply qmin_r|]. pose proof (round1_bound (qmax (h - ry1 r) 0 * fb)) as B.
  assert (K : qmax (h - ry1 r) 0 <= h - ry1 (e_bbox e)) by (unfold qmax; qcases; lra).
  assert (qmax (h - ry1 r) 0 * fb <= fb * (h - ry1 (e_bbox e))) by nra. lra.
Qed.
Lemma rounding_nonneg ns : 0 <= rounding_total ns.
Proof.
  induction ns as [|n ns IH]; cbn [rounding_total]; [lra|]. assert (0 <= SpacingSpec.num n) by (unfold SpacingSpec.num; change 0 with (inject_Z 0); rewrite <- Zle_Qle; lia).
  unfold Qdiv. change (/ 20) with (1 # 20). lra.
Qed.
Lemma roundings_total : forall ns e k d, nth_error (roundings e ns) k = Some d -> d <= e + rounding_total ns.
Proof.
  induction ns as [|n ns IH]; intros e k d E; [destruct k; discriminate E|]. cbn [roundings rounding_total] in *. destruct k as [|k].
  - cbn [nth_error] in E. injection E as <-. pose proof (rounding_nonneg ns). unfold Qdiv. change (/ 20) with (1 # 20). lra.
  - cbn [nth_error] in E. specialize (IH _ _ _ E). lra.
Qed.
(** One page: its bottom margin. *)
Lemma page_bottom order rorder ids pm fuel r ts p : (forall l, Permutation l (order l)) -> 1 # 1000000 < p_line_overlap pm -> 0 < p_float_layout pm ->
  0 <= p_factor_bottom pm ->
  paragraph_page r ts -> (forall l, In l (lines_in ts) -> Rect.covers (page_box r) (ln_bbox l)) ->
  (forall c, clean_page order pm r = Some c -> one_column (PageModel.working_bbox (r_width r) (r_height r) (page_margin pm r c)) ts) ->
  parse_page order rorder ids pm (S fuel) r = Ok p ->
  exists left right top bottom, sp_section p = DocxModel.mkSection (r_width r) (r_height r) [left; right; top; bottom] /\
    forall l, In l (lines_in ts) -> bottom <= p_factor_bottom pm * (r_height r - ry1 (ln_bbox l)) + (1 # 20).
Proof.
  intros Ho T Tf Fb Pp Inp Oc E0. destruct (page_laid order rorder ids pm fuel r ts Ho T Tf Pp Oc) as (c & ss & Cl & E & _ & _ & Sh & Pl & Bo).
  rewrite E in E0. injection E0 as <-. cbn [sp_section]. unfold page_section. set (m := page_margin pm r c) in *.
  do 4 eexists. split; [reflexivity|]. intros l Hl.
  pose proof Pp as (_ & _ & _ & _ & Pa & _ & _). rewrite Forall_forall in Pa.
  assert (FL : forall l, In l (lines_in ts) -> flat_line l) by (intros y Hy; apply in_flat_map in Hy; destruct Hy as (t & Ht & Hy); destruct (Pa t Ht) as (_ & _ & _ & _ & H); exact (H y Hy)).
  assert (LB : forall l, In l (lines_in ts) -> box (ln_bbox l)) by (intros y Hy; destruct (FL y Hy) as ((P & D & _) & _); split; assumption).
  assert (Hc : In l (lines_in (c_blocks c))) by (eapply Permutation_in; [apply Permutation_sym, Pl|exact Hl]). apply in_flat_map in Hc. destruct Hc as (b & Hb & Hlb).
  destruct (Bo b Hb) as (Bx & Ne & ms & Eb & Im).
  assert (Hin : forall x, In x ms -> In x (lines_in ts)) by (intros x Hx; eapply Permutation_in; [exact Pl|]; apply in_flat_map; exists b; split; [exact Hb|apply Im, Hx]).
  assert (Nm : ms <> []) by (intros ->; destruct (b_lines b) as [|x xs]; [congruence|]; destruct (proj2 (Im x) (or_introl eq_refl))).
  destruct (hull_sides ms Nm (fun x Hx => LB x (Hin x Hx))) as (_ & _ & _ & _ & (D1 & D2)). rewrite <- Eb in D1, D2. specialize (D2 l (proj2 (Im l) Hlb)).
  assert (Hh : ry1 (b_bbox b) <= r_height r) by (destruct D1 as (x & Hx & Ex); destruct (Inp x (Hin x Hx)) as (_ & _ & _ & A4); cbn [page_box ry1] in A4; lra).
  pose proof (bottom_share (map b_elem (c_blocks c)) [] (r_width r) (r_height r) (p_factor_top pm) (p_factor_bottom pm) (b_elem b) Fb) as Q.
  assert (Mg : m = PageModel.cal_margin (map b_elem (c_blocks c)) [] (r_width r) (r_height r) (p_factor_top pm) (p_factor_bottom pm)) by (unfold m, page_margin; rewrite Sh; reflexivity). rewrite Mg.
  eapply Qle_trans; [apply Q|].
  - intros x Hx. rewrite app_nil_r in Hx. apply in_map_iff in Hx. destruct Hx as (y & <- & Hy). destruct (Bo y Hy) as ((P & D) & _). split; [apply proper_valid; exact P|exact D].
  - rewrite app_nil_r. apply in_map, Hb.
  - exact (proj1 Bx).
  - exact Hh.
  - cbn [e_bbox b_elem]. assert (0 <= p_factor_bottom pm * (ry1 (b_bbox b) - ry1 (ln_bbox l))) by (apply Qmult_le_0_compat; [exact Fb|lra]). lra.
Qed.
