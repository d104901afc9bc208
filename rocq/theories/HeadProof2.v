(** A page of two columns between full-width paragraphs, as it is written. *)
From Verif Require GeomProof TableProps TableSpec TableProof FmtProof5 TabProof7 PlaceProof2 CutSpec.
From Verif Require Import AssignSpec AssignProof InterProof GraphProof TextProof PySort FlowModel FlowSpec FlowProof FlowProof2 FlowProps LayoutSpec LayoutProof.
From Verif Require Import CleanSpec CleanProof CleanProof2 CleanProof3 CleanProps.
From Verif Require Import TabSpec GridProof5 GridProof6 GridProof7 LayoutProof2.
From Verif Require Import CleanModel CleanSpec FlowModel FlowSpec LayoutModel WholeModel WholeSpec WholeProof WholeProof2 WholeProof3 WholeProof4 WholeProof5 WholeProof6 PlaceSpec PlaceProof3 TabProof TabProof2 TabProof3 TabProof4 TabProof5 TabProof6 TabProof8 TabProof9 WholeProof7 TabProof10.
From Verif Require PageModel ShapeModel.
From Verif Require Import SpacingModel TreeModel TreeSpec TreeProof TreeProof3 TreeProof5 TreeProof6 TreeProps TabProof11 ColSpec ColProof ColProof2 ColProof3 HeadSpec HeadProof.
From Verif Require SpacingProps.
From Verif Require Import WholeModel LayoutModel.
From Verif Require Import CleanModel.
From Coq Require Import Lia Lqa Permutation Sorting.Sorted.
Notation length := List.length.
Notation pairwise := BorderProof3.pairwise.
Open Scope Q_scope.

Lemma one_row_heights ft h n cs (A B : list tblock) hs : tab_rows ft = [(h, n)] -> 2 < h ->
  nth_error (final_heights (map vblock_of (map LText A ++ LTable ft cs :: map LText B))) (length A) = Some hs -> exists h', hs = [h'] /\ 0 <= h'.
Proof.
  intros Rw Hh E. set (bs := map vblock_of (map LText A ++ LTable ft cs :: map LText B)) in *.
  assert (Eb : nth_error bs (length A) = Some (VTable (tab_box ft) (WholeModel.top_border cs) [h])).
  { unfold bs. rewrite nth_error_map, nth_error_app2, map_length, Nat.sub_diag by (rewrite map_length; lia). cbn [nth_error option_map vblock_of]. rewrite Rw. reflexivity. }
  assert (Lb : length bs = (length A + S (length B))%nat) by (unfold bs; rewrite map_length, app_length; cbn [List.length]; rewrite !map_length; reflexivity).
  destruct (SpacingProps.C63_last_table bs (length A) _ _ _ Eb) as (hs' & E' & Mid & Last). rewrite E in E'. injection E' as <-.
  destruct B as [|t B]; [destruct (Last ltac:(rewrite Lb; cbn [List.length]; lia) [] h eq_refl) as (-> & _); exists (h - 1); split; [reflexivity|lra]|].
  rewrite (Mid ltac:(rewrite Lb; cbn [List.length]; lia)). exists h. split; [reflexivity|lra].
Qed.

Section Page.
Variable order : list nat -> list nat.
Variable rorder : list (Q * Q) -> list (Q * Q).
Variable ids : nat -> nat.
Variable pm : params.
Hypothesis Ho : forall l, Permutation l (order l).
Hypothesis Slo : 1 # 1000000 < p_line_overlap pm.
Hypothesis Sfl : 0 < p_float_layout pm.
Hypothesis Slm : 0 <= p_line_merging pm.
Variables (p : rawpage) (above left right below : list tblock).
Let m := p_line_merging pm.
Let cols := left ++ right.
Let texts := above ++ cols ++ below.
Hypothesis Pg : headed_page (p_image_gap pm) m p above left right below.
Let area c := PageModel.working_bbox (r_width p) (r_height p) (page_margin pm p c).
Hypothesis Ar : forall c, clean_page order pm p = Some c -> in_halves (area c) left right /\ across_lines (area c) (above ++ below) /\
  forall b, In b (c_blocks c) -> (forall l, In l (b_lines b) -> In l (lines_in cols)) -> balanced (area c) (b_bbox b).

Lemma text_box t : In t texts -> proper (b_bbox t) /\ forall l, In l (b_lines t) -> proper (ln_bbox l) /\ Rect.covers (b_bbox t) (ln_bbox l).
Proof.
  intros Ht. pose proof Pg as (_ & _ & _ & _ & _ & Pa & _). rewrite Forall_forall in Pa. destruct (Pa t Ht) as (_ & (_ & P & Cv) & _ & _ & Fl). split; [exact P|]. intros l Hl. destruct (Fl l Hl) as ((P1 & _) & _). split; [exact P1|apply (Cv l Hl)].
Qed.
(** Texts of different parts of the page are not beside each other. *)
Lemma parts_apart : forall a b, In a texts -> In b texts -> beside (b_bbox a) (b_bbox b) -> (In a above <-> In b above) /\ (In a cols <-> In b cols) /\ (In a below <-> In b below).
Proof.
  pose proof Pg as (Nl & _ & _ & _ & _ & _ & _ & _ & _ & _ & _ & _ & Sa & Sb & _).
  assert (U : exists u, In u cols) by (unfold cols; destruct left as [|u r]; [congruence|]; exists u; left; reflexivity). destruct U as (u & Hu). pose proof (text_box u ltac:(apply in_or_app; right; apply in_or_app; left; exact Hu)) as ((_ & Pu) & _).
  assert (AC : forall a b, In a above -> In b cols -> ry1 (b_bbox a) < ry0 (b_bbox b)) by (intros a b Ha Hb; specialize (Sa a b Ha Hb); lra).
  assert (CB : forall a b, In a cols -> In b below -> ry1 (b_bbox a) < ry0 (b_bbox b)) by (intros a b Ha Hb; specialize (Sb b a Hb Ha); lra).
  assert (AB : forall a b, In a above -> In b below -> ry1 (b_bbox a) < ry0 (b_bbox b)) by (intros a b Ha Hb; pose proof (AC a u Ha Hu); pose proof (CB u b Hu Hb); lra).
  assert (Sym : forall a b, In a texts -> In b texts -> beside (b_bbox a) (b_bbox b) -> (In a above -> In b above) /\ (In a cols -> In b cols) /\ (In a below -> In b below)).
  { intros a b Ha Hb (y & Ya & Yb). unfold texts in Hb. apply in_app_or in Hb. destruct Hb as [Hb|Hb]; [|apply in_app_or in Hb; destruct Hb as [Hb|Hb]].
    - split; [intros _; exact Hb|]. split; intros H; exfalso; [pose proof (AC b a Hb H)|pose proof (AB b a Hb H)]; lra.
    - split; [intros H; exfalso; pose proof (AC a b H Hb); lra|]. split; [intros _; exact Hb|]. intros H; exfalso; pose proof (CB b a Hb H); lra.
    - split; [intros H; exfalso; pose proof (AB a b H Hb); lra|]. split; [intros H; exfalso; pose proof (CB a b H Hb); lra|]. intros _; exact Hb. }
  intros a b Ha Hb Be. destruct (Sym a b Ha Hb Be) as (A1 & A2 & A3). destruct (Sym b a Hb Ha) as (B1 & B2 & B3); [destruct Be as (y & Y1 & Y2); exists y; split; assumption|]. tauto.
Qed.

Theorem headed_parsed fuel : exists c ft b0 b1 h n, clean_page order pm p = Some c /\ c_floats c = [] /\
  layout_parse order rorder ids (layout_settings pm) (S (S fuel)) true (LayoutModel.mkW (c_shapes c) 0) (area c) (map LText (c_blocks c)) (page_shapes c) =
    Ok (LayoutModel.mkW [] n, map LText (map para_block above) ++ LTable ft [done (Some b0) left; done (Some b1) right] :: map LText (map para_block below)) /\
  half b0 /\ half b1 /\ 2 < h /\ tab_rows ft = [(h, 2%nat)] /\ tab_lattice ft = false /\ box (tab_box ft).
Proof.
  pose proof Pg as (Nl & Sh & Pp & Pb & Pt & Pa & Ot & Ta & Tl & Tr & Tb & Gp & Sa & Sb & Spn). fold cols in Pb, Pt, Pa, Ot, Sa, Sb, Spn. fold texts in Pb, Pt, Pa, Ot.
  assert (Ln : forall ts l, In l (lines_in ts) -> (forall t, In t ts -> In t texts) -> exists t, In t ts /\ Rect.covers (b_bbox t) (ln_bbox l) /\ proper (b_bbox t)).
  { intros ts l Hl I. apply in_flat_map in Hl. destruct Hl as (t & Ht & Hl). exists t. split; [exact Ht|]. split; [apply (text_box t (I t Ht)), Hl|apply (text_box t (I t Ht))]. }
  assert (Ia : forall t, In t above -> In t texts) by (intros t H; apply in_or_app; left; exact H).
  assert (Ic : forall t, In t cols -> In t texts) by (intros t H; apply in_or_app; right; apply in_or_app; left; exact H).
  assert (Ib : forall t, In t below -> In t texts) by (intros t H; apply in_or_app; right; apply in_or_app; right; exact H).
  assert (Cc : pairwise (clear_of m) (lines_in cols)).
  { unfold cols. rewrite lines_in_app. apply pw_app; [apply (sorted_pw beneath); [intros a b H; left; exact H|apply top_down_lines, Tl]|apply (sorted_pw beneath); [intros a b H; left; exact H|apply top_down_lines, Tr]|]. intros x y Hx Hy. right. right. left. apply Gp; assumption. }
  assert (U : exists l, In l (lines_in cols)).
  { unfold cols. destruct left as [|u r] eqn:E; [congruence|]. rewrite Forall_forall in Pa. destruct (Pa u) as (_ & _ & Ne & _); [apply Ic; left; reflexivity|]. destruct (b_lines u) as [|l ls] eqn:El; [congruence|]. exists l. unfold lines_in. cbn [app flat_map]. rewrite El. left. reflexivity. }
  destruct U as (l0 & I0). destruct (Ln cols l0 I0 Ic) as (u & Hu & _ & (_ & Pu)).
  assert (Cr : pairwise (clear_of m) (lines_in texts)).
  { unfold texts. rewrite !lines_in_app. apply pw_app; [apply (sorted_pw beneath); [intros a b H; left; exact H|apply top_down_lines, Ta]|apply pw_app; [exact Cc|apply (sorted_pw beneath); [intros a b H; left; exact H|apply top_down_lines, Tb]|]|].
    - intros x y Hx Hy. left. unfold beneath. destruct (Ln cols x Hx Ic) as (t & Ht & (_ & _ & _ & C4) & _). destruct (Ln below y Hy Ib) as (v & Hv & (_ & C2 & _) & _). specialize (Sb v t Hv Ht). lra.
    - intros x y Hx Hy. left. unfold beneath. destruct (Ln above x Hx Ia) as (t & Ht & (_ & _ & _ & C4) & _). apply in_app_or in Hy. destruct Hy as [Hy|Hy].
      + destruct (Ln cols y Hy Ic) as (v & Hv & (_ & C2 & _) & _). specialize (Sa t v Ht Hv). lra.
      + destruct (Ln below y Hy Ib) as (v & Hv & (_ & C2 & _) & _). pose proof (Sa t u Ht Hu). pose proof (Sb v u Hv Hu). lra. }
  destruct (clean_clear order (p_image_gap pm) (p_line_overlap pm) m (page_box p) (r_blocks p) texts Ho Slm Slo Pp Pb Pt Pa Cr) as (out & Cu & Pl & Bo & Pr & Nb).
  assert (Cl : clean_page order pm p = Some (mkClean [] (sort_blocks out) [])) by (unfold clean_page; fold m; rewrite Cu, Sh; reflexivity).
  destruct (Ar _ Cl) as (Hal & Acr & Bal). cbn [c_blocks] in Bal. pose proof (sort_blocks_perm out) as Ps.
  assert (Bo' : forall b, In b (sort_blocks out) -> In b out /\ hulled b /\ box (b_bbox b)).
  { intros b Hb. pose proof (Permutation_in _ (Permutation_sym Ps) Hb) as Hb'. destruct (Bo b Hb') as (B1 & B2 & B3 & B4). split; [exact Hb'|]. split; [split; [exact B1|split; [exact B3|exact B4]]|exact B2]. }
  assert (Pl' : Permutation (lines_in (sort_blocks out)) (lines_in texts)) by (eapply Permutation_trans; [|exact Pl]; unfold lines_in; apply Permutation_flat_map; apply Permutation_sym, Ps).
  assert (Same : forall x y l, In x texts -> In y texts -> In l (b_lines x) -> In l (b_lines y) -> (In x above <-> In y above) /\ (In x cols <-> In y cols) /\ (In x below <-> In y below)).
  { intros x y l Hx Hy Lx Ly. apply parts_apart; [exact Hx|exact Hy|]. destruct (text_box x Hx) as (_ & Tx). destruct (text_box y Hy) as (_ & Ty). destruct (Tx l Lx) as ((_ & Pyl) & (_ & X2 & _ & X4)). destruct (Ty l Ly) as (_ & (_ & Y2 & _ & Y4)). exists (ry0 (ln_bbox l)). lra. }
  assert (Hz : forall b, In b (sort_blocks out) -> (forall l, In l (b_lines b) -> In l (lines_in above)) \/ (forall l, In l (b_lines b) -> In l (lines_in cols)) \/ (forall l, In l (b_lines b) -> In l (lines_in below))).
  { intros b Hb. destruct (Bo' b Hb) as (Hb' & (_ & Ne & _) & _). destruct (b_lines b) as [|k0 rest] eqn:Eb; [congruence|]. assert (K0 : In k0 (b_lines b)) by (rewrite Eb; left; reflexivity). rewrite <- Eb in *. clear Eb rest.
    assert (T0 : In k0 (lines_in texts)) by (eapply Permutation_in; [exact Pl|]; apply in_flat_map; exists b; split; assumption). apply in_flat_map in T0. destruct T0 as (t0 & Ht0 & Lt0).
    assert (Go : forall part, (forall t, In t part -> In t texts) -> (forall a c, In a texts -> In c texts -> beside (b_bbox a) (b_bbox c) -> (In a part <-> In c part)) -> (forall x y l, In x texts -> In y texts -> In l (b_lines x) -> In l (b_lines y) -> (In x part <-> In y part)) -> In t0 part -> forall l, In l (b_lines b) -> In l (lines_in part)).
    { intros part I1 I2 I3 I4 l Hl. destruct (Pr (fun t => In t part) I2 b k0 l Hb' K0 Hl) as (x & y & Hx & Hy & Lx & Ly & Im). apply in_flat_map. exists y. split; [|exact Ly]. apply Im. apply (I3 t0 x k0 Ht0 Hx Lt0 Lx), I4. }
    pose proof Ht0 as Ht1. unfold texts in Ht1. apply in_app_or in Ht1. destruct Ht1 as [H|H]; [|apply in_app_or in H; destruct H as [H|H]].
    - left. apply (Go above Ia); [intros a c A1 A2 A3; apply (parts_apart a c A1 A2 A3)|intros x y l A1 A2 A3 A4; apply (Same x y l A1 A2 A3 A4)|exact H].
    - right. left. apply (Go cols Ic); [intros a c A1 A2 A3; apply (parts_apart a c A1 A2 A3)|intros x y l A1 A2 A3 A4; apply (Same x y l A1 A2 A3 A4)|exact H].
    - right. right. apply (Go below Ib); [intros a c A1 A2 A3; apply (parts_apart a c A1 A2 A3)|intros x y l A1 A2 A3 A4; apply (Same x y l A1 A2 A3 A4)|exact H]. }
  destruct (headed_level order rorder ids (layout_settings pm) Ho Sfl above left right below (area (mkClean [] (sort_blocks out) [])) (sort_blocks out) Pa Ot Ta Tl Tr Tb Sa Sb Spn Hal Acr Pl') with (fuel := fuel) as (ft & b0 & b1 & h & n & E & R).
  - intros b Hb. apply (Bo' b Hb).
  - eapply BorderProof3.pairwise_perm; [|exact Ps|]; [intros a b H; unfold vsep in *; tauto|]. apply no_beside_vsep; [intros b Hb; apply (Bo b Hb)|exact Nb].
  - exact Hz.
  - exact Bal.
  - exists (mkClean [] (sort_blocks out) []), ft, b0, b1, h, n. split; [exact Cl|]. split; [reflexivity|]. split; [exact E|exact R].
Qed.

Theorem headed_written fuel tpl : exists c pg body ind hs t, clean_page order pm p = Some c /\ parse_page order rorder ids pm (S (S fuel)) p = Ok pg /\
    document_docx tpl [pg] = Some ([page_section p (page_margin pm p c)], body) /\ well_formed body /\ dsections [] body = [body] /\
    flat_map entry body = entries above ++ None :: entries below /\ In (DTable ind hs t) body /\ columns_shown left right t /\
    (forall b, In b (sp_blocks pg) -> regular b) /\ sp_floats pg = [] /\
    exists sa before h b0 b1 v0 v1 s0 s1 sb, sp_blocks pg = sa ++ STable before (columns_row h b0 b1 v0 v1 s0 s1) :: sb /\ tp_lattice before = false /\ Forall2 spaced (map para_block left) s0 /\ Forall2 spaced (map para_block right) s1 /\
      Forall2 spaced (map para_block above) sa /\ Forall2 spaced (map para_block below) sb.
Proof.
  destruct (headed_parsed fuel) as (c & ft & b0 & b1 & h & n & Cl & Fl & Lp & H0 & H1 & Hh & Rw & La & Bf). pose proof Pg as (_ & _ & _ & _ & _ & Pa & _).
  apply Forall_app in Pa. destruct Pa as (PA & Pa). apply Forall_app in Pa. destruct Pa as (Pa & PB). apply Forall_app in Pa. destruct Pa as (Pl & Pr). rewrite Forall_forall in Pl, Pr, PA, PB. pose proof H0 as (Mg0 & Wd0 & Bg0 & Bx0). pose proof H1 as (Mg1 & Wd1 & Bg1 & Bx1).
  destruct (space_texts order pm (working_box b0) (map para_block left) Ho) as (s0 & E0 & F0); [intros u Hu; apply in_map_iff in Hu; destruct Hu as (t & <- & Ht); apply para_ok, Pl, Ht|].
  destruct (space_texts order pm (working_box b1) (map para_block right) Ho) as (s1 & E1 & F1); [intros u Hu; apply in_map_iff in Hu; destruct Hu as (t & <- & Ht); apply para_ok, Pr, Ht|].
  assert (C0 : exists v0, space_cell order pm (done (Some b0) left) = Some (Some b0, v0, s0)) by (eexists; unfold space_cell, done; cbn [lc_info lc_blocks fst snd]; rewrite (GeomProof.proper_truthy _ (proj1 Bx0)); rewrite map_map in E0; rewrite E0; reflexivity).
  assert (C1 : exists v1, space_cell order pm (done (Some b1) right) = Some (Some b1, v1, s1)) by (eexists; unfold space_cell, done; cbn [lc_info lc_blocks fst snd]; rewrite (GeomProof.proper_truthy _ (proj1 Bx1)); rewrite map_map in E1; rewrite E1; reflexivity).
  destruct C0 as (v0 & C0), C1 as (v1 & C1). set (cs := [done (Some b0) left; done (Some b1) right]) in *.
  assert (Al : all_some (map (space_cell order pm) cs) = Some [(Some b0, v0, s0); (Some b1, v1, s1)]) by (unfold cs; cbn [map]; rewrite C0, C1; reflexivity).
  set (bs := map LText (map para_block above) ++ LTable ft cs :: map LText (map para_block below)) in *.
  assert (Tok : forall u, In u (map para_block above) \/ In u (map para_block below) -> text_block_ok u) by (intros u [H|H]; apply in_map_iff in H; destruct H as (t & <- & Ht); apply para_ok; [apply PA|apply PB]; exact Ht).
  destruct (space_total order pm (area c) bs) as (ss & Es).
  { intros b Hb. unfold bs in Hb. apply in_app_or in Hb. destruct Hb as [Hb|[<-|Hb]].
    - apply in_map_iff in Hb. destruct Hb as (u & <- & Hu). destruct (Tok u (or_introl Hu)) as (_ & Ne). exact Ne.
    - cbn [vblock_of SpacingProps.lineless]. discriminate.
    - apply in_map_iff in Hb. destruct Hb as (u & <- & Hu). destruct (Tok u (or_intror Hu)) as (_ & Ne). exact Ne. }
  { intros b v hs Hb. unfold bs in Hb. apply in_app_or in Hb. destruct Hb as [Hb|[<-|Hb]].
    - apply in_map_iff in Hb. destruct Hb as (u & <- & Hu). destruct (space_text order pm (area c) v hs u Ho (Tok u (or_introl Hu))) as (s & E & _). exists s. exact E.
    - eexists. cbn [space_block]. match goal with |- option_map _ ?x = _ => replace x with (Some [(Some b0, v0, s0); (Some b1, v1, s1)]) by (symmetry; exact Al) end. reflexivity.
    - apply in_map_iff in Hb. destruct Hb as (u & <- & Hu). destruct (space_text order pm (area c) v hs u Ho (Tok u (or_intror Hu))) as (s & E & _). exists s. exact E. }
  assert (Pp : parse_page order rorder ids pm (S (S fuel)) p = Ok (mkSPage (page_section p (page_margin pm p c)) ss [])).
  { unfold area in Lp, Es. unfold parse_page. rewrite Cl. cbv zeta. rewrite Lp. cbn [bind snd]. rewrite Es, Fl. reflexivity. }
  destruct (space_nth _ _ _ _ _ Es) as (Ls & Ns).
  assert (F2 : Forall2 (fun b s => exists v hs, space_block order pm b (area c) v hs = Some s) bs ss).
  { apply Forall2_nth; [symmetry; exact Ls|]. intros i b s Eb Esi. destruct (Ns i s Esi) as (b' & v & hs & Eb' & _ & E). rewrite Eb in Eb'. injection Eb' as <-. exists v, hs. exact E. }
  apply Forall2_app_inv_l in F2. destruct F2 as (sa & sr & Fa & Fr & Ess). inversion Fr as [|? st ? sb (vv & hh & Evh) Fb]; subst sr. subst l. clear vv hh Evh.
  assert (Spc : forall us l, (forall u, In u us -> text_block_ok u) -> Forall2 (fun b s => exists v hs, space_block order pm b (area c) v hs = Some s) (map LText us) l -> Forall2 spaced us l).
  { clear - Ho. induction us as [|u us IH]; intros l H F; inversion F as [|? s ? l' (v & hs & E) F']; subst; constructor; [|apply IH; [intros x Hx; apply H; right; exact Hx|exact F']].
    destruct (space_text order pm (area c) v hs u Ho (H u (or_introl eq_refl))) as (s' & E' & S). rewrite E in E'. injection E' as <-. exact S. }
  assert (Sa : Forall2 spaced (map para_block above) sa) by (apply Spc; [intros u Hu; apply Tok; left; exact Hu|exact Fa]).
  assert (Sb : Forall2 spaced (map para_block below) sb) by (apply Spc; [intros u Hu; apply Tok; right; exact Hu|exact Fb]).
  assert (Lsa : length sa = length (map para_block above)) by (symmetry; apply (Forall2_len _ _ _ Sa)).
  destruct (Ns (length sa) st) as (b' & v & hs & Eb & Eh & E); [rewrite Ess, nth_error_app2, Nat.sub_diag by lia; reflexivity|].
  unfold bs in Eb. rewrite nth_error_app2, map_length, Lsa, Nat.sub_diag in Eb by (rewrite map_length; lia). injection Eb as <-.
  rewrite Lsa in Eh. destruct (one_row_heights ft h 2 cs (map para_block above) (map para_block below) hs Rw Hh Eh) as (h' & -> & Nh).
  apply space_table in E. destruct E as (sc & E & Est). pose proof (eq_trans (eq_sym Al) E) as Y. injection Y as <-. rewrite Rw in Est. cbn [map snd cut firstn skipn combine] in Est.
  set (tpv := mkTP (v_before v) (rx0 ft - rx0 (area c)) (tab_lattice ft)) in *. set (rows := columns_row h' b0 b1 v0 v1 s0 s1). assert (Es2 : st = STable tpv rows) by exact Est. clear Est. subst st.
  assert (Dv : divides 1 2 halves_of rows) by (apply halves_divide; assumption).
  assert (Sp : forall b us l, Forall2 spaced us l -> In b l -> regular b) by (clear; induction 1 as [|u s us l (t & -> & _) _ IH]; [intros []|intros [<-|H]; [constructor|apply IH, H]]).
  assert (Rg : regular (STable tpv rows)).
  { apply (regular_table tpv rows 1 2 halves_of); [lia|exact halves_part|exact Dv| |].
    - intros hx cells [X|[]]. injection X as <- _. exact Nh.
    - intros hx cells info vx bls b [X|[]] Hc Hb. injection X as _ <-. destruct Hc as [X|[X|[]]]; injection X as _ _ <-; [apply (Sp b _ _ F0 Hb)|apply (Sp b _ _ F1 Hb)]. }
  set (pg := mkSPage (page_section p (page_margin pm p c)) ss []).
  assert (Rp : forall q b, In q [pg] -> In b (sp_blocks q) -> regular b).
  { intros q b [<-|[]] Hb. cbn [pg sp_blocks] in Hb. rewrite Ess in Hb. apply in_app_or in Hb. destruct Hb as [Hb|[<-|Hb]]; [apply (Sp b _ _ Sa Hb)|exact Rg|apply (Sp b _ _ Sb Hb)]. }
  destruct (C70_document tpl [pg] ltac:(discriminate) Rp) as (body & Ed & Wf & _).
  pose proof (document_displayed tpl [pg] _ body ltac:(discriminate) Rp Ed) as Ds. inversion Ds as [|content ? contents ? D1 D2 Ec]; subst. inversion D2; subst. symmetry in Ec.
  pose proof (single_content body [] content Ec) as Eb2. cbn [app] in Eb2. subst content. cbn [sp_blocks pg] in D1.
  pose proof (displayed_entries _ _ D1) as En. apply Forall2_app_inv_l in D1. destruct D1 as (da & dr & _ & Dr & Ev). inversion Dr as [|? dt ? db Dt _]; subst dr.
  inversion Dt as [|before0 rows0 nr nc t (r0 & P0 & Dv0) Lt Show X1 X2]. subst before0. subst rows0. subst dt.
  assert (Nr : nr = 1%nat) by (destruct Dv0 as (Y & _); symmetry; exact Y). assert (Nc : nc = 2%nat) by (destruct Dv0 as (_ & Y); destruct (Y 0%nat _ _ eq_refl) as (Z & _); symmetry; exact Z). rewrite Nr in Lt, Show. rewrite Nc in Show. clear Dv0 P0 r0.
  exists c, pg, body, (20 * tp_left tpv), (map (fun row => WordModel.pt (fst row)) rows), t. split; [exact Cl|]. split; [exact Pp|]. split; [exact Ed|]. split; [exact Wf|]. split; [exact Ec|].
  split; [rewrite En, map_app; cbn [map block_entry]; rewrite (spaced_entries _ _ Sa), (spaced_entries _ _ Sb), !entries_para; reflexivity|]. split.
  { assert (I : In (DTable (20 * tp_left tpv) (map (fun row => WordModel.pt (fst row)) rows) t) (filter visible body)) by (rewrite Ev; apply in_elt). apply filter_In in I. apply I. }
  split; [|split; [intros b Hb; apply (Rp pg b (or_introl eq_refl) Hb)|split; [reflexivity|exists sa, tpv, h', b0, b1, v0, v1, s0, s1, sb; split; [reflexivity|split; [exact La|split; [exact F0|split; [exact F1|split; [exact Sa|exact Sb]]]]]]]].
  split; [exact Lt|]. intros q Hq. destruct (Show halves_of 0%nat q 0%nat q 1%nat 1%nat halves_part Dv ltac:(lia) Hq eq_refl) as (Sn & hx & scs & b & vt & bls & tc & Ei & Ej & Ov & Sw & De & Sd & _ & _ & Di). split; [exact Sn|].
  exists tc. split; [exact Ov|]. split; [exact Sw|]. cbn [rows columns_row nth_error] in Ei. injection Ei as <- <-.
  assert (Bl : forall b, half b -> WordSpec.drawn_edges b (WordModel.t_pr tc) -> borderless (WordModel.t_pr tc)).
  { clear. intros b (_ & W & _) D. unfold WordSpec.drawn_edges in D. rewrite W in D. destruct (bc_colors b) as [[[c1 c2] c3] c4]. exact D. }
  destruct q as [|q]; [|destruct q as [|q]; [|lia]]; cbn [nth_error] in Ej; injection Ej as <- <- <-; cbn [Nat.eqb].
  - split; [apply (Bl b0 H0 De)|]. split; [rewrite Sd, Bg0; reflexivity|]. rewrite (displayed_entries _ _ Di), (spaced_entries _ _ F0). apply entries_para.
  - split; [apply (Bl b1 H1 De)|]. split; [rewrite Sd, Bg1; reflexivity|]. rewrite (displayed_entries _ _ Di), (spaced_entries _ _ F1). apply entries_para.
Qed.
End Page.
