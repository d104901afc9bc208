(** A page of two columns, as it is written. *)
From Verif Require GeomProof TableProps TableSpec TableProof FmtProof5 TabProof7 PlaceProof2 CutSpec.
From Verif Require Import AssignSpec AssignProof InterProof GraphProof TextProof PySort FlowModel FlowSpec FlowProof FlowProof2 FlowProps LayoutSpec LayoutProof.
From Verif Require Import CleanSpec CleanProof CleanProof2 CleanProof3 CleanProps.
From Verif Require Import TabSpec GridProof5 GridProof6 GridProof7 LayoutProof2.
From Verif Require Import CleanModel CleanSpec FlowModel FlowSpec LayoutModel WholeModel WholeSpec WholeProof WholeProof2 WholeProof3 WholeProof4 WholeProof5 WholeProof6 PlaceSpec PlaceProof3 TabProof TabProof2 TabProof3 TabProof4 TabProof5 TabProof6 TabProof8 TabProof9 WholeProof7 TabProof10.
From Verif Require PageModel ShapeModel.
From Verif Require Import SpacingModel TreeModel TreeSpec TreeProof TreeProof3 TreeProof5 TreeProof6 TreeProps TabProof11 ColSpec ColProof ColProof2.
From Verif Require SpacingProps.
From Verif Require Import WholeModel LayoutModel.
From Verif Require Import CleanModel.
From Coq Require Import Lia Lqa Permutation Sorting.Sorted.
Notation length := List.length.
Notation pairwise := BorderProof3.pairwise.
Open Scope Q_scope.

(** The table of the two columns, as it is spaced. *)
Definition columns_row (h : Q) (b0 b1 : bcell) (v0 v1 : bool) (s0 s1 : list sblock) : list (Q * list scell) := [(h, [(Some b0, v0, s0); (Some b1, v1, s1)])].
Definition halves_of (i j : nat) : TableSpec.region := (i, j, 1, 1)%nat.
Lemma halves_part : TableSpec.partition 1 2 halves_of.
Proof. intros p q Hp Hq. unfold halves_of. cbn [TableSpec.in_region]. split; [lia|]. intros p' q' (A & B). assert (p' = p) by lia. assert (q' = q) by lia. subst. split; [lia|]. split; [lia|reflexivity]. Qed.
Lemma halves_divide h b0 b1 v0 v1 s0 s1 : half b0 -> half b1 -> divides 1 2 halves_of (columns_row h b0 b1 v0 v1 s0 s1).
Proof.
  intros (M0 & _) (M1 & _). split; [reflexivity|]. intros i h' cells Ei. destruct i as [|i]; [|destruct i; discriminate Ei]. cbn [columns_row nth_error] in Ei. injection Ei as <- <-. split; [reflexivity|]. intros j info v bs Ej.
  destruct j as [|j]; [|destruct j as [|j]; [|destruct j; discriminate Ej]]; cbn [nth_error] in Ej; injection Ej as <- <- <-; [rewrite M0|rewrite M1]; reflexivity.
Qed.

Section Page.
Variable order : list nat -> list nat.
Variable rorder : list (Q * Q) -> list (Q * Q).
Variable ids : nat -> nat.
Variable pm : params.
Hypothesis Ho : forall l, Permutation l (order l).
Hypothesis Slo : 1 # 1000000 < p_line_overlap pm.
Hypothesis Sfl : 0 < p_float_layout pm.
Hypothesis Slm : 0 <= p_line_merging pm.
Variables (p : rawpage) (left right : list tblock).
Let m := p_line_merging pm.
Hypothesis Pg : column_page (p_image_gap pm) m p left right.
Let area c := PageModel.working_bbox (r_width p) (r_height p) (page_margin pm p c).
Hypothesis Ar : forall c, clean_page order pm p = Some c -> in_halves (area c) left right /\ forall b, In b (c_blocks c) -> balanced (area c) (b_bbox b).

Theorem columns_parsed fuel : exists c ft b0 b1 h n, clean_page order pm p = Some c /\ c_floats c = [] /\
  layout_parse order rorder ids (layout_settings pm) (S (S fuel)) true (LayoutModel.mkW (c_shapes c) 0) (area c) (map LText (c_blocks c)) (page_shapes c) =
    Ok (LayoutModel.mkW [] n, [LTable ft [done (Some b0) left; done (Some b1) right]]) /\
  half b0 /\ half b1 /\ 2 < h /\ tab_rows ft = [(h, 2%nat)] /\ tab_lattice ft = false /\ box (tab_box ft).
Proof.
  pose proof Pg as (Sh & Pp & Pb & Pt & Pa & Ot & Tl & Tr & Gp & Spn).
  assert (Cr : pairwise (clear_of m) (lines_in (left ++ right))).
  { rewrite lines_in_app. apply pw_app; [apply (sorted_pw beneath); [intros a b H; left; exact H|apply top_down_lines, Tl]|apply (sorted_pw beneath); [intros a b H; left; exact H|apply top_down_lines, Tr]|]. intros x y Hx Hy. right. right. left. apply Gp; assumption. }
  destruct (clean_clear order (p_image_gap pm) (p_line_overlap pm) m (page_box p) (r_blocks p) (left ++ right) Ho Slm Slo Pp Pb Pt Pa Cr) as (out & Cu & Pl & Bo & _ & Nb).
  assert (Cl : clean_page order pm p = Some (mkClean [] (sort_blocks out) [])) by (unfold clean_page; fold m; rewrite Cu, Sh; reflexivity).
  destruct (Ar _ Cl) as (Hal & Bal). cbn [c_blocks] in Bal. pose proof (sort_blocks_perm out) as Ps.
  assert (Bo' : forall b, In b (sort_blocks out) -> hulled b /\ box (b_bbox b)).
  { intros b Hb. destruct (Bo b (Permutation_in _ (Permutation_sym Ps) Hb)) as (B1 & B2 & B3 & B4). split; [split; [exact B1|split; [exact B3|exact B4]]|exact B2]. }
  destruct (columns_level order rorder ids (layout_settings pm) Ho Sfl left right (area (mkClean [] (sort_blocks out) [])) (sort_blocks out) Pa Ot Tl Tr Spn Hal) with (fuel := fuel) as (ft & b0 & b1 & h & n & E & R).
  - eapply Permutation_trans; [|exact Pl]. unfold lines_in. apply Permutation_flat_map. apply Permutation_sym, Ps.
  - intros b Hb. apply (Bo' b Hb).
  - eapply BorderProof3.pairwise_perm; [|exact Ps|]; [intros a b H; unfold vsep in *; tauto|]. apply no_beside_vsep; [intros b Hb; apply (Bo b Hb)|exact Nb].
  - exact Bal.
  - exists (mkClean [] (sort_blocks out) []), ft, b0, b1, h, n. split; [exact Cl|]. split; [reflexivity|]. split; [exact E|exact R].
Qed.

Theorem columns_written fuel tpl : exists c pg body ind hs t, clean_page order pm p = Some c /\ parse_page order rorder ids pm (S (S fuel)) p = Ok pg /\
    document_docx tpl [pg] = Some ([page_section p (page_margin pm p c)], body) /\ well_formed body /\ dsections [] body = [body] /\
    flat_map entry body = [None] /\ In (DTable ind hs t) body /\ columns_shown left right t /\
    (forall b, In b (sp_blocks pg) -> regular b) /\ sp_floats pg = [] /\
    exists before h b0 b1 v0 v1 s0 s1, sp_blocks pg = [STable before (columns_row h b0 b1 v0 v1 s0 s1)] /\ tp_lattice before = false /\ Forall2 spaced (map para_block left) s0 /\ Forall2 spaced (map para_block right) s1.
Proof.
  destruct (columns_parsed fuel) as (c & ft & b0 & b1 & h & n & Cl & Fl & Lp & H0 & H1 & Hh & Rw & La & Bf). pose proof Pg as (_ & _ & _ & _ & Pa & _).
  apply Forall_app in Pa. destruct Pa as (Pl & Pr). rewrite Forall_forall in Pl, Pr. pose proof H0 as (Mg0 & Wd0 & Bg0 & Bx0). pose proof H1 as (Mg1 & Wd1 & Bg1 & Bx1).
  destruct (space_texts order pm (working_box b0) (map para_block left) Ho) as (s0 & E0 & F0); [intros u Hu; apply in_map_iff in Hu; destruct Hu as (t & <- & Ht); apply para_ok, Pl, Ht|].
  destruct (space_texts order pm (working_box b1) (map para_block right) Ho) as (s1 & E1 & F1); [intros u Hu; apply in_map_iff in Hu; destruct Hu as (t & <- & Ht); apply para_ok, Pr, Ht|].
  assert (C0 : exists v0, space_cell order pm (done (Some b0) left) = Some (Some b0, v0, s0)) by (eexists; unfold space_cell, done; cbn [lc_info lc_blocks fst snd]; rewrite (GeomProof.proper_truthy _ (proj1 Bx0)); rewrite map_map in E0; rewrite E0; reflexivity).
  assert (C1 : exists v1, space_cell order pm (done (Some b1) right) = Some (Some b1, v1, s1)) by (eexists; unfold space_cell, done; cbn [lc_info lc_blocks fst snd]; rewrite (GeomProof.proper_truthy _ (proj1 Bx1)); rewrite map_map in E1; rewrite E1; reflexivity).
  destruct C0 as (v0 & C0), C1 as (v1 & C1). set (cs := [done (Some b0) left; done (Some b1) right]) in *.
  assert (Al : all_some (map (space_cell order pm) cs) = Some [(Some b0, v0, s0); (Some b1, v1, s1)]) by (unfold cs; cbn [map]; rewrite C0, C1; reflexivity).
  destruct (space_total order pm (area c) [LTable ft cs]) as (ss & Es).
  { intros b [<-|[]]. cbn [vblock_of SpacingProps.lineless]. discriminate. }
  { intros b v hs [<-|[]]. eexists. cbn [space_block]. match goal with |- option_map _ ?x = _ => replace x with (Some [(Some b0, v0, s0); (Some b1, v1, s1)]) by (symmetry; exact Al) end. reflexivity. }
  assert (Pp : parse_page order rorder ids pm (S (S fuel)) p = Ok (mkSPage (page_section p (page_margin pm p c)) ss [])).
  { unfold area in Lp, Es. unfold parse_page. rewrite Cl. cbv zeta. rewrite Lp. cbn [bind snd]. rewrite Es, Fl. reflexivity. }
  destruct (space_nth _ _ _ _ _ Es) as (Ls & Ns). destruct ss as [|s ss]; [discriminate Ls|]. destruct ss; [|discriminate Ls]. clear Ls.
  destruct (Ns 0%nat s eq_refl) as (b' & v & hs & Eb & Eh & E). injection Eb as <-. apply space_table in E. destruct E as (sc & E & Est). pose proof (eq_trans (eq_sym Al) E) as Y. injection Y as <-.
  assert (Hs : hs = [h - 1]).
  { destruct (SpacingProps.C63_last_table (map vblock_of [LTable ft cs]) 0 (tab_box ft) (WholeModel.top_border cs) [h]) as (hs' & E' & _ & Last); [cbn [map vblock_of nth_error]; rewrite Rw; reflexivity|]. pose proof (eq_trans (eq_sym Eh) E') as Y. injection Y as ->. destruct (Last eq_refl [] h eq_refl) as (-> & _). reflexivity. }
  subst hs. rewrite Rw in Est. cbn [map snd cut firstn skipn combine] in Est.
  set (tpv := mkTP (v_before v) (rx0 ft - rx0 (area c)) (tab_lattice ft)) in *. set (rows := columns_row (h - 1) b0 b1 v0 v1 s0 s1). assert (Es2 : s = STable tpv rows) by exact Est. clear Est. subst s.
  assert (Dv : divides 1 2 halves_of rows) by (apply halves_divide; assumption).
  assert (Sp : forall b us l, Forall2 spaced us l -> In b l -> regular b) by (clear; induction 1 as [|u s us l (t & -> & _) _ IH]; [intros []|intros [<-|H]; [constructor|apply IH, H]]).
  assert (Rg : regular (STable tpv rows)).
  { apply (regular_table tpv rows 1 2 halves_of); [lia|exact halves_part|exact Dv| |].
    - intros h' cells [X|[]]. injection X as <- _. lra.
    - intros h' cells info v' bs b [X|[]] Hc Hb. injection X as _ <-. destruct Hc as [X|[X|[]]]; injection X as _ _ <-; [apply (Sp b _ _ F0 Hb)|apply (Sp b _ _ F1 Hb)]. }
  set (pg := mkSPage (page_section p (page_margin pm p c)) [STable tpv rows] []).
  assert (Rp : forall q b, In q [pg] -> In b (sp_blocks q) -> regular b) by (intros q b [<-|[]] [<-|[]]; exact Rg).
  destruct (C70_document tpl [pg] ltac:(discriminate) Rp) as (body & Ed & Wf & _).
  pose proof (document_displayed tpl [pg] _ body ltac:(discriminate) Rp Ed) as Ds. inversion Ds as [|content ? contents ? D1 D2 Ec]; subst. inversion D2; subst. symmetry in Ec.
  pose proof (single_content body [] content Ec) as Eb2. cbn [app] in Eb2. subst content. cbn [sp_blocks pg] in D1.
  pose proof (displayed_entries _ _ D1) as En. inversion D1 as [|? dt ? db Dt Dn Ev1 Ev]. subst. inversion Dn; subst.
  inversion Dt as [|before0 rows0 nr nc t (r0 & P0 & Dv0) Lt Show X1 X2]. subst before0. subst rows0. subst dt.
  assert (Nr : nr = 1%nat) by (destruct Dv0 as (Y & _); symmetry; exact Y). assert (Nc : nc = 2%nat) by (destruct Dv0 as (_ & Y); destruct (Y 0%nat _ _ eq_refl) as (Z & _); symmetry; exact Z). rewrite Nr in Lt, Show. rewrite Nc in Show. clear Dv0 P0 r0.
  exists c, pg, body, (20 * tp_left tpv), (map (fun row => WordModel.pt (fst row)) rows), t. split; [exact Cl|]. split; [exact Pp|]. split; [exact Ed|]. split; [exact Wf|]. split; [exact Ec|].
  split; [rewrite En; reflexivity|]. split.
  { assert (I : In (DTable (20 * tp_left tpv) (map (fun row => WordModel.pt (fst row)) rows) t) (filter visible body)) by (match type of Ev with ?x = _ => rewrite <- Ev end; left; reflexivity). apply filter_In in I. apply I. }
  split; [|split; [intros b [<-|[]]; exact Rg|split; [reflexivity|exists tpv, (h - 1), b0, b1, v0, v1, s0, s1; split; [reflexivity|split; [exact La|split; [exact F0|exact F1]]]]]].
  split; [exact Lt|]. intros q Hq. destruct (Show halves_of 0%nat q 0%nat q 1%nat 1%nat halves_part Dv ltac:(lia) Hq eq_refl) as (Sn & h' & scs & b & vt & bls & tc & Ei & Ej & Ov & Sw & De & Sd & _ & _ & Di). split; [exact Sn|].
  exists tc. split; [exact Ov|]. split; [exact Sw|]. cbn [rows columns_row nth_error] in Ei. injection Ei as <- <-.
  assert (Bl : forall b, half b -> WordSpec.drawn_edges b (WordModel.t_pr tc) -> borderless (WordModel.t_pr tc)).
  { clear. intros b (_ & W & _) D. unfold WordSpec.drawn_edges in D. rewrite W in D. destruct (bc_colors b) as [[[c1 c2] c3] c4]. exact D. }
  destruct q as [|q]; [|destruct q as [|q]; [|lia]]; cbn [nth_error] in Ej; injection Ej as <- <- <-; cbn [Nat.eqb].
  - split; [apply (Bl b0 H0 De)|]. split; [rewrite Sd, Bg0; reflexivity|]. rewrite (displayed_entries _ _ Di), (spaced_entries _ _ F0). apply entries_para.
  - split; [apply (Bl b1 H1 De)|]. split; [rewrite Sd, Bg1; reflexivity|]. rewrite (displayed_entries _ _ Di), (spaced_entries _ _ F1). apply entries_para.
Qed.
End Page.
