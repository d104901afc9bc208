(** The margins of a page with a table. *)
From Verif Require GeomProof TableSpec TabProof7 PageProps.
From Verif Require Import AssignSpec AssignProof PySort.
From Verif Require Import CleanSpec CleanProof CleanProof2.
From Verif Require Import TabSpec.
From Verif Require Import CleanModel CleanSpec LayoutModel WholeModel WholeSpec WholeProof WholeProof2 PlaceSpec PlaceProof3 TabProof TabProof5 TabProof8 TabProof9 TabProof10 TabProof11.
From Verif Require PageModel ShapeModel.
From Verif Require Import GridSpec CleanModel.
From Coq Require Import Lia Lqa Permutation Sorting.Sorted.
Notation length := List.length.
Open Scope Q_scope.

Section Page.
Variable order : list nat -> list nat.
Variable pm : params.
Hypothesis Ho : forall l, Permutation l (order l).
Variables (d : Q) (p : rawpage) (g : grid) (r : nat -> nat -> TableSpec.region).
Variables (above below : list tblock) (cells : nat -> nat -> list tblock).
Let m := p_line_merging pm.
Hypothesis Set_ : table_settings pm d g.
Hypothesis Pg : table_page (p_image_gap pm) m p g r above cells below.
Let texts := all_texts g above below cells.

Lemma page_cleaned c : clean_page order pm p = Some c ->
  Permutation (lines_in (c_blocks c)) (lines_in texts) /\
  (forall b, In b (c_blocks c) -> box (b_bbox b) /\ b_lines b <> [] /\ exists ls, b_bbox b = hull ls /\ forall l, In l ls <-> In l (b_lines b)) /\
  forall s, In s (c_shapes c) -> proper (sh_bbox s) /\ rect_decimal (sh_bbox s) /\ exists s', In s' (r_shapes p) /\ sh_bbox s = sh_bbox s'.
Proof.
  intros E. pose proof (pd1 pm d g Set_) as D1. pose proof (pok pm d g Set_) as Ok_. pose proof (ptx pm p g r above below cells Pg) as Tx.
  pose proof Set_ as (Slo & Sfl & Scn & Scl & Sbw & Ssm & Slm & Sd1 & Sd2 & Sd3 & Sd4 & Sd5 & Sw & _). pose proof Pg as (Pp & Pb & Pt & _ & Dr & Ro & Ti & Ss).
  assert (Pa : Forall paragraph texts) by apply Tx.
  destruct (clean_clear order (p_image_gap pm) (p_line_overlap pm) m (page_box p) (r_blocks p) texts Ho Slm Slo Pp Pb Pt Pa (texts_clear pm d p g r above below cells Set_ Pg)) as (out & Cu & Pl & Bo & _ & _).
  set (ss := ShapeModel.clean_up (page_box p) (p_border_width pm) (p_shape_merging pm) (p_shape_min pm) (r_shapes p)).
  assert (Ps : Permutation (r_shapes p) ss) by (apply (TabProof7.clean_drawn d g Ok_ D1 Sd4 Sw); [exact Ssm|exact Sd2|exact Pp|exact Dr|intros s Hs; apply (Ss s Hs)]).
  assert (Cl : clean_page order pm p = Some (mkClean [] (sort_blocks out) (name_shapes 1 ss))) by (unfold clean_page; fold m; rewrite Cu; reflexivity).
  rewrite Cl in E. apply (f_equal (fun o => match o with Some z => z | None => c end)) in E. cbv beta iota in E. subst c. cbn [c_blocks c_shapes].
  pose proof (drawn_perm g _ _ Ps Dr) as Ds. pose proof (sort_blocks_perm out) as Pso. split; [|split].
  - eapply Permutation_trans; [|exact Pl]. unfold lines_in. apply Permutation_flat_map, Permutation_sym, Pso.
  - intros b Hb. apply (Permutation_in _ (Permutation_sym Pso)) in Hb. destruct (Bo b Hb) as (_ & X). exact X.
  - intros s Hs. pose proof (named_renamed ss 1) as F. assert (X : exists s0, In s0 ss /\ renamed s0 s).
    { clear - F Hs. revert Hs. generalize (name_shapes 1 ss) as l, F. clear F. intros l F. induction F as [|x y xs ys R F IH]; intros Hs; [destruct Hs|]. destruct Hs as [<-|Hs]; [exists x; split; [left; reflexivity|exact R]|]. destruct (IH Hs) as (s0 & A & B). exists s0. split; [right; exact A|exact B]. }
    destruct X as (s0 & Hs0 & (u & ->)). cbn [sh_bbox]. destruct (TabProof7.drawn_strokes d g Ok_ D1 Sd4 Sw ss Ds s0 Hs0) as (A & _ & _ & B). split; [exact A|]. split; [exact B|]. exists s0. split; [|reflexivity]. apply (Permutation_in _ (Permutation_sym Ps)), Hs0.
Qed.
Hypothesis Ft : 0 <= p_factor_top pm <= 1.
Hypothesis Fb : 0 <= p_factor_bottom pm <= 1.
Hypothesis Inp : forall l, In l (lines_in texts) -> Rect.covers (page_box p) (ln_bbox l).
Lemma page_margins c : clean_page order pm p = Some c -> let mg := page_margin pm p c in
  area_holds p (PageModel.m_left mg) (PageModel.m_right mg) (PageModel.m_top mg) (PageModel.m_bottom mg) texts.
Proof.
  intros Cl mg l Hl. destruct (page_cleaned c Cl) as (Pl & Bo & Sh). pose proof (ptx pm p g r above below cells Pg) as Tx. assert (Pa : Forall paragraph texts) by apply Tx. rewrite Forall_forall in Pa.
  assert (LB : forall l, In l (lines_in texts) -> box (ln_bbox l)).
  { intros x Hx. apply in_flat_map in Hx. destruct Hx as (t & Ht & Hx). destruct (Pa t Ht) as (_ & _ & _ & _ & H). destruct (H x Hx) as ((P & D & _) & _). split; assumption. }
  pose proof Pg as (_ & _ & _ & _ & _ & _ & _ & Ss).
  assert (Hull : forall b, In b (c_blocks c) -> box (b_bbox b) /\ (forall l, In l (b_lines b) -> rx0 (b_bbox b) <= rx0 (ln_bbox l) /\ rx1 (ln_bbox l) <= rx1 (b_bbox b) /\ ry0 (b_bbox b) <= ry0 (ln_bbox l) /\ ry1 (ln_bbox l) <= ry1 (b_bbox b)) /\ Rect.covers (page_box p) (b_bbox b)).
  { intros b' Hb'. destruct (Bo b' Hb') as (Bx & Ne & ms & Eb & Im). assert (Hin : forall x, In x ms -> In x (lines_in texts)) by (intros x Hx; eapply Permutation_in; [exact Pl|]; apply in_flat_map; exists b'; split; [exact Hb'|apply Im, Hx]).
    assert (Nm : ms <> []) by (intros ->; destruct (b_lines b') as [|x xs]; [congruence|]; destruct (proj2 (Im x) (or_introl eq_refl))).
    destruct (hull_sides ms Nm (fun x Hx => LB x (Hin x Hx))) as (_ & (L1 & L2) & (R1 & R2) & (U1 & U2) & (D1 & D2)). rewrite Eb in *. split; [exact Bx|]. split.
    - intros x Hx. apply Im in Hx. specialize (L2 x Hx). specialize (R2 x Hx). specialize (U2 x Hx). specialize (D2 x Hx). split; [exact L2|split; [exact R2|split; [exact U2|exact D2]]].
    - destruct L1 as (x1 & H1 & E1), R1 as (x2 & H2 & E2), U1 as (x3 & H3 & E3), D1 as (x4 & H4 & E4).
      destruct (Inp x1 (Hin x1 H1)) as (A1 & _ & _ & _), (Inp x2 (Hin x2 H2)) as (_ & _ & A2 & _), (Inp x3 (Hin x3 H3)) as (_ & A3 & _ & _), (Inp x4 (Hin x4 H4)) as (_ & _ & _ & A4).
      unfold Rect.covers. split; [lra|]. split; [lra|]. split; lra. }
  assert (Hc : In l (lines_in (c_blocks c))) by (eapply Permutation_in; [apply Permutation_sym, Pl|exact Hl]). apply in_flat_map in Hc. destruct Hc as (b & Hb & Hlb).
  destruct (Hull b Hb) as ((Pb & Db) & Cb & _). destruct (Cb l Hlb) as (K1 & K2 & K3 & K4).
  set (sh := map (fun s => mkElem 0 (sh_bbox s) LEFT_RIGHT) (c_shapes c)).
  assert (All : forall x, In x (map b_elem (c_blocks c) ++ sh) -> GeomSpec.normal_box (e_bbox x) /\ (proper (e_bbox x) -> Rect.covers (page_box p) (e_bbox x))).
  { intros x Hx. apply in_app_or in Hx. destruct Hx as [Hx|Hx]; apply in_map_iff in Hx; destruct Hx as (y & <- & Hy).
    - destruct (Hull y Hy) as ((P & D) & _ & C). split; [split; [apply proper_valid; exact P|exact D]|intros _; exact C].
    - destruct (Sh y Hy) as (P & D & s' & Hs & Es). cbn [e_bbox]. split; [split; [apply proper_valid; exact P|exact D]|intros _]. rewrite Es. apply (Ss s' Hs). }
  destruct (PageProps.C35_content_is_inside (map b_elem (c_blocks c)) sh (r_width p) (r_height p) (p_factor_top pm) (p_factor_bottom pm) (b_elem b) Ft Fb) as (Q1 & Q2 & Q3 & Q4);
    [intros x Hx; apply (All x Hx)|intros x Hx Px; apply (All x Hx), Px|apply in_or_app; left; apply in_map, Hb|exact Pb|].
  change (PageModel.cal_margin (map b_elem (c_blocks c)) sh (r_width p) (r_height p) (p_factor_top pm) (p_factor_bottom pm)) with mg in Q1, Q2, Q3, Q4. cbn [e_bbox b_elem] in Q1, Q2, Q3, Q4.
  split; [lra|]. split; [lra|]. split; lra.
Qed.
End Page.
