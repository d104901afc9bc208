(** A page with a ruled table, as it is written. *)
From Verif Require GeomProof TableProps TableSpec TableProof FmtProof5 TabProof7 PlaceProof2 CutSpec.
From Verif Require Import AssignSpec AssignProof InterProof GraphProof TextProof PySort FlowModel FlowSpec FlowProof FlowProof2 FlowProps LayoutSpec LayoutProof.
From Verif Require Import CleanSpec CleanProof CleanProof2 CleanProof3 CleanProps.
From Verif Require Import TabSpec GridProof5 GridProof6 GridProof7 LayoutProof2.
From Verif Require Import CleanModel CleanSpec FlowModel FlowSpec LayoutModel WholeModel WholeSpec WholeProof WholeProof2 WholeProof3 WholeProof4 WholeProof5 WholeProof6 PlaceSpec PlaceProof3 TabProof TabProof2 TabProof3 TabProof4 TabProof5 TabProof6 TabProof8 TabProof9 WholeProof7 TabProof10.
From Verif Require PageModel ShapeModel.
From Verif Require Import GridSpec.
From Verif Require Import CleanModel.
From Coq Require Import Lia Lqa Permutation Sorting.Sorted.
Notation length := List.length.
Notation pairwise := BorderProof3.pairwise.
Open Scope Q_scope.

From Verif Require Import SpacingModel TreeModel TreeSpec TreeProof TreeProof3 TreeProof5 TreeProof6 TreeProps.
From Verif Require SpacingProps.
From Verif Require Import WholeModel LayoutModel.
From Verif Require Import GridSpec.

From Verif Require Import CleanModel.

Lemma spaced_entry u s : spaced u s -> block_entry s = Some (line_glyphs (b_lines u)).
Proof. intros (t & -> & E & _). cbn [block_entry]. rewrite E. reflexivity. Qed.
Lemma spaced_entries us ss : Forall2 spaced us ss -> map block_entry ss = map (fun u => Some (line_glyphs (b_lines u))) us.
Proof. induction 1 as [|u s us ss H _ IH]; [reflexivity|]. cbn [map]. rewrite (spaced_entry u s H), IH. reflexivity. Qed.
Lemma entries_para ts : map (fun u => Some (line_glyphs (b_lines u))) (map para_block ts) = entries ts.
Proof. unfold entries. rewrite map_map. apply map_ext. intros t. reflexivity. Qed.
Lemma displayed_entries bs ds : Forall2 displays bs (filter visible ds) -> flat_map entry ds = map block_entry bs.
Proof.
  assert (F : flat_map entry ds = flat_map entry (filter visible ds)) by (induction ds as [|d ds IH]; [reflexivity|]; destruct d; cbn [flat_map filter visible entry app]; rewrite IH; reflexivity).
  rewrite F. generalize (filter visible ds). clear. intros ds H. induction H as [|b d bs ds H _ IH]; [reflexivity|]. cbn [flat_map map]. rewrite IH. destruct H as [t w fs _ E|]; [cbn [entry block_entry app]; rewrite E|]; reflexivity.
Qed.
Lemma displayed_pars bs ds : Forall2 displays bs (filter visible ds) -> flat_map paragraphs_of ds = flat_map PlaceProof2.block_par bs.
Proof.
  assert (F : flat_map paragraphs_of ds = flat_map paragraphs_of (filter visible ds)) by (induction ds as [|d ds IH]; [reflexivity|]; destruct d; cbn [flat_map filter visible paragraphs_of app]; rewrite IH; reflexivity).
  rewrite F. generalize (filter visible ds). clear. intros ds H. induction H as [|b d bs ds H _ IH]; [reflexivity|]. cbn [flat_map]. rewrite IH. destruct H as [t w fs E _|]; [cbn [paragraphs_of PlaceProof2.block_par app]; rewrite E|]; reflexivity.
Qed.
(** The cells of a Word table over the cells of the grid, with the blocks they are written from. *)
Definition cells_written (order : list nat -> list nat) (pm : params) (g : grid) (r : nat -> nat -> TableSpec.region) (cells : nat -> nat -> list tblock) (t : list (list (WordModel.tc ditem))) : Prop :=
  forall p q i j k n, (p < g_rows g)%nat -> (q < g_cols g)%nat -> r p q = (i, j, k, n) ->
    exists c b bls, WordSpec.over t i j = Some (j, c) /\ bc_bbox b = place g i j k n /\ bc_widths b = (g_width g, g_width g, g_width g, g_width g) /\
      cell_laid order pm b (cells i j) bls /\ flat_map paragraphs_of (WordModel.t_body c) = flat_map PlaceProof2.block_par bls.
Lemma Forall2_len {A B} (R : A -> B -> Prop) l m : Forall2 R l m -> length l = length m.
Proof. induction 1; cbn [List.length]; congruence. Qed.

Section Page.
Variable order : list nat -> list nat.
Variable rorder : list (Q * Q) -> list (Q * Q).
Variable ids : nat -> nat.
Variable pm : params.
Hypothesis Ho : forall l, Permutation l (order l).
Variables (d : Q) (p : rawpage) (g : grid) (r : nat -> nat -> TableSpec.region).
Variables (above below : list tblock) (cells : nat -> nat -> list tblock).
Let m := p_line_merging pm.
Hypothesis Set_ : table_settings pm d g.
Hypothesis Pg : table_page (p_image_gap pm) m p g r above cells below.
Let area c := PageModel.working_bbox (r_width p) (r_height p) (page_margin pm p c).

Lemma single_content l : forall cur content, dsections cur l = [content] -> content = cur ++ l.
Proof.
  assert (N : forall l cur, dsections cur l <> []) by (clear; induction l as [|x l IH]; intros cur; cbn; [discriminate|destruct (is_section_break x); [discriminate|apply IH]]).
  induction l as [|x l IH]; intros cur content E; cbn in E; [injection E as <-; rewrite app_nil_r; reflexivity|]. destruct (is_section_break x).
  - injection E as _ E. exfalso. exact (N _ _ E).
  - rewrite (IH _ _ E), <- app_assoc. reflexivity.
Qed.
(** The heights of the rows of the table. *)
Lemma table_heights_ok cs (A B : list tblock) hs : nth_error (final_heights (map vblock_of (map LText A ++ LTable (frame_table g) cs :: map LText B))) (length A) = Some hs ->
  length hs = g_rows g /\ (forall h, In h hs -> 0 <= h) /\ row_heights g (match B with [] => true | _ => false end) (map WordModel.pt hs).
Proof.
  intros E. pose proof Set_ as (_ & _ & _ & _ & _ & _ & _ & _ & _ & D7 & _). pose proof (pok pm d g Set_) as Ok_. pose proof (frame_heights d g D7 Ok_) as Fh.
  set (fh := map fst (tab_rows (frame_table g))) in *. set (bs := map vblock_of (map LText A ++ LTable (frame_table g) cs :: map LText B)) in *.
  assert (Lf : length fh = g_rows g) by (unfold fh, frame_table; cbn [tab_rows]; rewrite !map_length, seq_length; reflexivity).
  assert (Nf : forall i, (i < g_rows g)%nat -> nth_error fh i = Some (round1 (gy g (S i)) - round1 (gy g i))).
  { intros i Hi. unfold fh, frame_table. cbn [tab_rows]. rewrite map_map, nth_error_map, (nth_error_nth' _ 0%nat) by (rewrite seq_length; exact Hi). rewrite seq_nth by exact Hi. reflexivity. }
  assert (Eb : nth_error bs (length A) = Some (VTable (tab_box (frame_table g)) (WholeModel.top_border cs) fh)).
  { unfold bs. rewrite nth_error_map, nth_error_app2, map_length, Nat.sub_diag by (rewrite map_length; lia). reflexivity. }
  assert (Lb : length bs = (length A + S (length B))%nat) by (unfold bs; rewrite map_length, app_length; cbn [List.length]; rewrite !map_length; reflexivity).
  destruct (SpacingProps.C63_last_table bs (length A) _ _ _ Eb) as (hs' & E' & Mid & Last). rewrite E in E'. injection E' as <-.
  destruct B as [|t B].
  - destruct (exists_last (l := fh)) as (front & x & Ef); [intros X; rewrite X in Lf; pose proof Ok_ as (_ & C2 & _); cbn in Lf; lia|]. destruct (Last ltac:(rewrite Lb; cbn [List.length]; lia) front x Ef) as (-> & _).
    assert (Lfr : S (length front) = g_rows g) by (rewrite <- Lf, Ef, app_length; cbn [List.length]; lia).
    split; [rewrite app_length; cbn [List.length]; lia|]. split.
    + intros h Hh. apply in_app_or in Hh. destruct Hh as [Hh|[<-|[]]]; [assert (1 <= h) by (apply Fh; rewrite Ef; apply in_or_app; left; exact Hh); lra|]. assert (1 <= x) by (apply Fh; rewrite Ef; apply in_elt). lra.
    + split; [rewrite map_length, app_length; cbn [List.length]; lia|]. intros i h Ei. rewrite nth_error_map in Ei. destruct (nth_error (front ++ [x - 1]) i) as [y|] eqn:Ey; [|discriminate Ei]. injection Ei as <-. f_equal. cbv zeta. cbn [andb].
      assert (Hi : (i < g_rows g)%nat) by (assert (X : (i < length (front ++ [(x - 1)%Q]))%nat) by (apply nth_error_Some; congruence); rewrite app_length in X; cbn [List.length] in X; lia). specialize (Nf i Hi). rewrite Ef in Nf.
      destruct (Nat.eqb_spec (S i) (g_rows g)) as [El|El].
      * assert (i = length front) by lia. subst i. rewrite nth_error_app2, Nat.sub_diag in Ey, Nf by lia. cbn [nth_error] in Ey, Nf. injection Ey as <-. injection Nf as ->. reflexivity.
      * rewrite nth_error_app1 in Ey, Nf by lia. rewrite Ey in Nf. injection Nf as ->. reflexivity.
  - rewrite (Mid ltac:(rewrite Lb; cbn [List.length]; lia)). split; [exact Lf|]. split; [intros h Hh; specialize (Fh h Hh); lra|].
    split; [rewrite map_length; exact Lf|]. intros i h Ei. rewrite nth_error_map in Ei. destruct (nth_error fh i) as [y|] eqn:Ey; [|discriminate Ei]. injection Ei as <-. f_equal. cbn [andb]. assert (Hi : (i < g_rows g)%nat) by (rewrite <- Lf; apply nth_error_Some; congruence). rewrite (Nf i Hi) in Ey. injection Ey as <-. reflexivity.
Qed.

Theorem page_shown fuel tpl : (forall c, clean_page order pm p = Some c -> across_middle (area c) g /\ sharing g r (c_blocks c)) ->
  exists c pg body ind hs t, clean_page order pm p = Some c /\ parse_page order rorder ids pm (S (S fuel)) p = Ok pg /\
    document_docx tpl [pg] = Some ([page_section p (page_margin pm p c)], body) /\ well_formed body /\ dsections [] body = [body] /\
    flat_map entry body = entries above ++ None :: entries below /\ In (DTable ind hs t) body /\
    table_shown g r (r_shapes p) cells t /\ row_heights g (match below with [] => true | _ => false end) hs /\ cells_written order pm g r cells t /\
    (forall b, In b (sp_blocks pg) -> regular b) /\
    (forall P : TextModel.span -> Prop, (forall l s, In l (lines_in (above ++ in_grid g cells ++ below)) -> In s (ln_spans l) -> P s) -> forall s, In s (CutSpec.page_spans pg) -> P s) /\
    exists sa before srows sb, sp_blocks pg = sa ++ STable before srows :: sb /\ Forall2 spaced (map para_block above) sa /\ Forall2 spaced (map para_block below) sb /\ sp_floats pg = [] /\
      exists cs, space_layout order pm (area c) (map LText (map para_block above) ++ LTable (frame_table g) cs :: map LText (map para_block below)) = Some (sp_blocks pg) /\ WholeModel.top_border cs = Some (g_width g) /\ ind = 20 * (rx0 (frame_table g) - rx0 (area c)) /\ tp_lattice before = true /\
        List.length srows = g_rows g /\ forall i h scs, nth_error srows i = Some (h, scs) -> (i < g_rows g)%nat /\ length scs = g_cols g /\ forall j, (j < g_cols g)%nat ->
          ((TableSpec.reg_top (r i j), TableSpec.reg_left (r i j)) = (i, j) /\ exists b v bs, nth_error scs j = Some (Some b, v, bs) /\ Forall2 spaced (map para_block (cells i j)) bs) \/
          ((TableSpec.reg_top (r i j), TableSpec.reg_left (r i j)) <> (i, j) /\ nth_error scs j = Some (None, false, [])).
Proof.
  intros Ac. destruct (page_tabled order rorder ids pm Ho d p g r above below cells Set_ Pg fuel Ac) as (c & rows & w1 & n & Cl & Fl & Lp & Rd & Bd).
  pose proof (pok pm d g Set_) as Ok_. pose proof (ptx pm p g r above below cells Pg) as Tx. pose proof (ptl pm p g r above below cells Pg) as Ti. pose proof Set_ as (_ & _ & _ & _ & _ & _ & _ & _ & _ & D7 & _).
  set (cs := map (fun p => done (fst p) (snd p)) (combine (concat rows) (tile_texts g cells))) in *.
  set (bs := map LText (map para_block above) ++ LTable (frame_table g) cs :: map LText (map para_block below)) in *.
  assert (Tok : forall u, In u (map para_block above) \/ In u (map para_block below) -> text_block_ok u).
  { intros u [H|H]; apply in_map_iff in H; destruct H as (t & <- & Ht); apply para_ok; apply (text_paragraph m g r above below cells Tx); unfold all_texts; apply in_or_app; [left; exact Ht|right; apply in_or_app; right; exact Ht]. }
  destruct (space_total order pm (area c) bs) as (ss & Es).
  { intros b Hb. unfold bs in Hb. apply in_app_or in Hb. destruct Hb as [Hb|[<-|Hb]].
    - apply in_map_iff in Hb. destruct Hb as (u & <- & Hu). destruct (Tok u (or_introl Hu)) as (_ & Ne). exact Ne.
    - cbn [vblock_of SpacingProps.lineless]. pose proof Ok_ as (C1 & C2 & _). destruct (cs_nth g cells rows Rd 0 0 ltac:(lia) ltac:(lia)) as (o & row & _ & _ & E3). fold cs in E3. destruct cs; [discriminate E3|discriminate].
    - apply in_map_iff in Hb. destruct Hb as (u & <- & Hu). destruct (Tok u (or_intror Hu)) as (_ & Ne). exact Ne. }
  { intros b v hs Hb. unfold bs in Hb. apply in_app_or in Hb. destruct Hb as [Hb|[<-|Hb]].
    - apply in_map_iff in Hb. destruct Hb as (u & <- & Hu). destruct (space_text order pm (area c) v hs u Ho (Tok u (or_introl Hu))) as (s & E & _). exists s. exact E.
    - apply (table_spaced order pm Ho d m g r above below cells D7 Ok_ Ti Tx rows Rd).
    - apply in_map_iff in Hb. destruct Hb as (u & <- & Hu). destruct (space_text order pm (area c) v hs u Ho (Tok u (or_intror Hu))) as (s & E & _). exists s. exact E. }
  assert (Pp : parse_page order rorder ids pm (S (S fuel)) p = Ok (mkSPage (page_section p (page_margin pm p c)) ss [])).
  { unfold parse_page. rewrite Cl. cbv zeta. rewrite Lp. cbn [bind snd]. fold bs. unfold area in Es. rewrite Es, Fl. reflexivity. }
  destruct (space_nth _ _ _ _ _ Es) as (Ls & Ns).
  assert (F2 : Forall2 (fun b s => exists v hs, space_block order pm b (area c) v hs = Some s) bs ss).
  { apply Forall2_nth; [symmetry; exact Ls|]. intros i b s Eb Esi. destruct (Ns i s Esi) as (b' & v & hs & Eb' & _ & E). rewrite Eb in Eb'. injection Eb' as <-. exists v, hs. exact E. }
  apply Forall2_app_inv_l in F2. destruct F2 as (sa & sr & Fa & Fr & Ess). inversion Fr as [|? st ? sb (v0 & hs0 & E0) Fb]; subst sr. subst l.
  assert (Spc : forall us l, (forall u, In u us -> text_block_ok u) -> Forall2 (fun b s => exists v hs, space_block order pm b (area c) v hs = Some s) (map LText us) l -> Forall2 spaced us l).
  { clear - Ho. induction us as [|u us IH]; intros l H F; inversion F as [|? s ? l' (v & hs & E) F']; subst; constructor; [|apply IH; [intros x Hx; apply H; right; exact Hx|exact F']].
    destruct (space_text order pm (area c) v hs u Ho (H u (or_introl eq_refl))) as (s' & E' & S). rewrite E in E'. injection E' as <-. exact S. }
  assert (Sa : Forall2 spaced (map para_block above) sa) by (apply Spc; [intros u Hu; apply Tok; left; exact Hu|exact Fa]).
  assert (Sb : Forall2 spaced (map para_block below) sb) by (apply Spc; [intros u Hu; apply Tok; right; exact Hu|exact Fb]).
  assert (La : length sa = length (map para_block above)) by (symmetry; apply (Forall2_len _ _ _ Sa)).
  destruct (Ns (length sa) st) as (b' & v & hs & Eb & Eh & E); [rewrite Ess, nth_error_app2, Nat.sub_diag by lia; reflexivity|].
  unfold bs in Eb. rewrite nth_error_app2, map_length, La, Nat.sub_diag in Eb by (rewrite map_length; lia). injection Eb as <-.
  rewrite La in Eh. fold bs in Eh. destruct (table_heights_ok cs (map para_block above) (map para_block below) hs Eh) as (Lh & Nh & Rh).
  destruct (table_srows order pm Ho d m g r above below cells D7 Ok_ Ti Tx rows Rd (area c) v hs st Lh E) as (srows & -> & Eq & Dv & Main).
  assert (Rg : regular (STable (mkTP (v_before v) (rx0 (frame_table g) - rx0 (area c)) (tab_lattice (frame_table g))) srows)) by (apply (srows_regular order pm d g r cells Ok_ Ti rows (mkTP (v_before v) (rx0 (frame_table g) - rx0 (area c)) (tab_lattice (frame_table g))) srows Dv); [intros h Hh; apply Nh; rewrite <- Eq; exact Hh|exact Main]).
  assert (Reg : forall b, In b ss -> regular b).
  { intros b Hb. rewrite Ess in Hb. assert (Sp : forall us l, Forall2 spaced us l -> In b l -> regular b) by (clear; induction 1 as [|u s us l (t & -> & _) _ IH]; [intros []|intros [<-|H]; [constructor|apply IH, H]]).
    apply in_app_or in Hb. destruct Hb as [Hb|[<-|Hb]]; [apply (Sp _ _ Sa Hb)|exact Rg|apply (Sp _ _ Sb Hb)]. }
  set (pg := mkSPage (page_section p (page_margin pm p c)) ss []).
  assert (Rp : forall q b, In q [pg] -> In b (sp_blocks q) -> regular b) by (intros q b [<-|[]] Hb; apply Reg, Hb).
  destruct (C70_document tpl [pg] ltac:(discriminate) Rp) as (body & Ed & Wf & _).
  pose proof (document_displayed tpl [pg] _ body ltac:(discriminate) Rp Ed) as Ds. inversion Ds as [|content ? contents ? D1 D2 Ec]; subst. inversion D2; subst. symmetry in Ec.
  pose proof (single_content body [] content Ec) as Eb2. cbn [app] in Eb2. subst content. cbn [sp_blocks pg] in D1.
  pose proof (displayed_entries _ _ D1) as En. apply Forall2_app_inv_l in D1. destruct D1 as (da & dr & _ & Dr & Ev). inversion Dr as [|? dt ? db Dt _]; subst dr.
  inversion Dt as [|before0 rows0 nr nc t (r0 & P0 & Dv0) Lt Show E1 E2]. subst before0. subst rows0. subst dt.
  assert (Nr : nr = g_rows g) by (destruct Dv as (X & _), Dv0 as (Y & _); congruence). pose proof Ok_ as (C1 & C2 & _).
  assert (Nc : nc = g_cols g).
  { destruct Dv as (X & XX), Dv0 as (Y & YY). destruct (nth_error srows 0) as [[h scs]|] eqn:Z; [|exfalso; apply nth_error_None in Z; match type of Z with (?a <= 0)%nat => assert (Za : a = g_rows g) by exact X end; rewrite Za in Z; clear - Z C2; lia]. destruct (XX 0%nat h scs Z) as (A & _), (YY 0%nat h scs Z) as (B & _). congruence. }
  rewrite Nr in Lt, Show. rewrite Nc in Show. clear Dv0 P0 r0 Nr Nc.
  exists c, pg, body, (20 * (rx0 (frame_table g) - rx0 (area c))), (map (fun row => WordModel.pt (fst row)) srows), t. split; [exact Cl|]. split; [exact Pp|]. split; [exact Ed|]. split; [exact Wf|]. split; [exact Ec|].
  split; [rewrite En, map_app; cbn [map block_entry]; rewrite (spaced_entries _ _ Sa), (spaced_entries _ _ Sb), !entries_para; reflexivity|].
  split; [assert (I : In (DTable (20 * (rx0 (frame_table g) - rx0 (area c))) (map (fun row => WordModel.pt (fst row)) srows) t) (filter visible body)) by (rewrite Ev; apply in_elt); apply filter_In in I; apply I|].
  assert (Cw : forall p' q i j k n', (p' < g_rows g)%nat -> (q < g_cols g)%nat -> r p' q = (i, j, k, n') -> WordSpec.shown_at t p' q = Some (i, j) /\
    exists tc b bls, WordSpec.over t i j = Some (j, tc) /\ WordModel.t_span tc = n' /\ WordModel.pr_width (WordModel.t_pr tc) = Some (rx1 (bc_bbox b) - rx0 (bc_bbox b)) /\ bc_bbox b = place g i j k n' /\
      bc_widths b = (g_width g, g_width g, g_width g, g_width g) /\
      (exists tp rg bt lf, In tp (r_shapes p) /\ In rg (r_shapes p) /\ In bt (r_shapes p) /\ In lf (r_shapes p) /\
        h_rule g i tp /\ v_rule g (j + n') rg /\ h_rule g (i + k) bt /\ v_rule g j lf /\
        border_of (g_width g) tp (WordModel.pr_top (WordModel.t_pr tc)) /\ border_of (g_width g) rg (WordModel.pr_end (WordModel.t_pr tc)) /\
        border_of (g_width g) bt (WordModel.pr_bottom (WordModel.t_pr tc)) /\ border_of (g_width g) lf (WordModel.pr_start (WordModel.t_pr tc))) /\
      cell_laid order pm b (cells i j) bls /\ Forall2 displays bls (filter visible (WordModel.t_body tc))).
  { intros p' q i j k n' Hp Hq Er. destruct (Show r p' q i j k n' (proj1 Ti) Dv Hp Hq Er) as (Sh & h & scs & b & vt & bls & tc & Ei & Ej & Ov & Sp & De & _ & _ & Wi & Di). split; [exact Sh|].
    destruct (Main i h scs Ei) as (Hi & Lsc & At). assert (Hj : (j < g_cols g)%nat) by (rewrite <- Lsc; apply nth_error_Some; intros X; pose proof (eq_trans (eq_sym X) Ej) as Y; discriminate Y).
    destruct (At j Hj) as (o & row & R1 & R2 & K). destruct o as [b2|].
    + destruct K as (v2 & bs2 & K & Fs). pose proof (eq_trans (eq_sym K) Ej) as Y. injection Y as -> -> ->.
      destruct (tile_extent g r Ti p' q i j k n' Hp Hq Er) as (_ & _ & _ & _ & _ & Er2). pose proof (cell_kind d g r D7 Ok_ Ti rows Rd i j row (Some b) Hi Hj R1 R2) as (Ck & _).
      assert (Em : bc_merged b = (k, n')) by (rewrite Er2 in Ck; destruct (bc_merged b); cbn [fst snd] in Ck; injection Ck as -> ->; reflexivity).
      pose proof Rd as (_ & RD). destruct (RD i row R1) as (_ & RC). destruct (RC j (Some b) R2) as (k' & n2 & _ & _ & _ & Bb & Em'). rewrite Em in Em'. injection Em' as <- <-.
      destruct (Bd i j row b k n' R1 R2 Em (tile_sides d g r Ok_ Ti i j i j k n' Hi Hj Er2)) as (Wd & tp & rg & bt & lf & I1 & I2 & I3 & I4 & Q1 & Q2 & Q3 & Q4 & Co).
      exists tc, b, bls. split; [exact Ov|]. split; [exact Sp|]. split; [exact Wi|]. split; [exact Bb|]. split; [exact Wd|]. split; [|split; [exact Fs|exact Di]].
      exists tp, rg, bt, lf. split; [exact I1|]. split; [exact I2|]. split; [exact I3|]. split; [exact I4|]. split; [exact Q1|]. split; [exact Q2|]. split; [exact Q3|]. split; [exact Q4|].
      unfold WordSpec.drawn_edges in De. rewrite Wd, Co in De. unfold WordSpec.drawn_edge in De. assert (W0 : qeq (g_width g) 0 = false) by (pose proof Ok_ as (_ & _ & X & _); unfold qeq; destruct (Qeq_bool (g_width g) 0) eqn:X2; [apply Qeq_bool_iff in X2; lra|reflexivity]).
      rewrite W0 in De. exact De.
    + pose proof (eq_trans (eq_sym K) Ej) as Y. discriminate Y. }
  split; [|split; [|split; [|split; [|split]]]].
  - split; [exact Lt|]. intros p' q i j k n' Hp Hq Er. destruct (Cw p' q i j k n' Hp Hq Er) as (Sh & tc & b & bls & Ov & Sp & Wi & Bb & _ & Br & (Fs & _) & Di). split; [exact Sh|].
    exists tc. split; [exact Ov|]. split; [exact Sp|]. split; [rewrite Wi, Bb; reflexivity|]. split; [exact Br|].
    rewrite (displayed_entries _ _ Di), (spaced_entries _ _ Fs), entries_para. reflexivity.
  - replace (match below with [] => true | _ => false end) with (match map para_block below with [] => true | _ => false end) by (destruct below; reflexivity). rewrite map_map in Rh. exact Rh.
  - intros p' q i j k n' Hp Hq Er. destruct (Cw p' q i j k n' Hp Hq Er) as (_ & tc & b & bls & Ov & _ & _ & Bb & Wd & _ & Cl' & Di). exists tc, b, bls.
    split; [exact Ov|]. split; [exact Bb|]. split; [exact Wd|]. split; [exact Cl'|]. apply displayed_pars, Di.
  - exact Reg.
  - intros P HP s Hs. cbn [CutSpec.page_spans sp_blocks pg] in Hs. apply in_flat_map in Hs. destruct Hs as (b & Hb & Hs).
    assert (Sp : forall ts l, (forall t, In t ts -> In t (above ++ in_grid g cells ++ below)) -> Forall2 spaced (map para_block ts) l -> forall b s, In b l -> In s (CutSpec.spans_of b) -> P s).
    { clear - HP. induction ts as [|t ts IH]; intros l I F b s Hb Hs; inversion F as [|? ? ? l' (x & -> & El & _) F']; subst; [destruct Hb|]. destruct Hb as [<-|Hb]; [|apply (IH l' (fun y Hy => I y (or_intror Hy)) F' b s Hb Hs)].
      cbn [CutSpec.spans_of] in Hs. apply in_flat_map in Hs. destruct Hs as (y & Hy & Hs). rewrite El in Hy. cbn [para_block b_lines] in Hy. apply (HP y s); [|exact Hs]. apply in_flat_map. exists t. split; [apply I; left; reflexivity|exact Hy]. }
    apply in_app_or in Hb. destruct Hb as [Hb|[<-|Hb]].
    + apply (Sp above sa (fun t Ht => in_or_app _ _ t (or_introl Ht)) Sa b s Hb Hs).
    + cbn [CutSpec.spans_of] in Hs. apply in_flat_map in Hs. destruct Hs as ((h & scs) & H1 & Hs). apply in_flat_map in Hs. destruct Hs as (((info & v1) & bls) & H2 & Hs). apply in_flat_map in Hs. destruct Hs as (b & Hb & Hs). cbn [fst snd] in *.
      apply In_nth_error in H1. destruct H1 as (i & Ei). apply In_nth_error in H2. destruct H2 as (j & Ej). destruct (Main i h scs Ei) as (Hi & Lsc & At).
      assert (Hj : (j < g_cols g)%nat) by (rewrite <- Lsc; apply nth_error_Some; intros X; pose proof (eq_trans (eq_sym X) Ej) as Y; discriminate Y). destruct (At j Hj) as (o & row & _ & _ & K). destruct o as [b2|].
      * destruct K as (v2 & bs2 & K & Fs & _). pose proof (eq_trans (eq_sym K) Ej) as Y. injection Y as _ _ ->. refine (Sp (cells i j) bls _ Fs b s Hb Hs). intros t' Ht. apply in_or_app. right. apply in_or_app. left. apply in_grid_In. exists i, j. split; [exact Hi|]. split; [exact Hj|exact Ht].
      * pose proof (eq_trans (eq_sym K) Ej) as Y. injection Y as _ _ <-. destruct Hb.
    + apply (Sp below sb (fun t Ht => in_or_app _ _ t (or_intror (in_or_app _ _ t (or_intror Ht)))) Sb b s Hb Hs).
  - exists sa, (mkTP (v_before v) (rx0 (frame_table g) - rx0 (area c)) (tab_lattice (frame_table g))), srows, sb. split; [reflexivity|]. split; [exact Sa|]. split; [exact Sb|]. split; [reflexivity|]. exists cs. split; [exact Es|].
    split; [|split; [reflexivity|split; [reflexivity|split; [rewrite <- (map_length fst srows); exact Lh|]]]]; cycle 1.
    { intros i h scs Ei. destruct (Main i h scs Ei) as (Hi & Lsc & At). split; [exact Hi|]. split; [exact Lsc|]. intros j Hj. destruct (At j Hj) as (o & row & R1 & R2 & K). pose proof (cell_kind d g r D7 Ok_ Ti rows Rd i j row o Hi Hj R1 R2) as Ck. destruct o as [b|].
      - left. destruct Ck as (Er2 & _). destruct K as (v2 & bs2 & K & Fs & _). split; [rewrite Er2; reflexivity|]. exists b, v2, bs2. split; [exact K|exact Fs].
      - right. split; [exact Ck|exact K]. }
    destruct (cs_nth g cells rows Rd 0 0 ltac:(lia) ltac:(lia)) as (o & row & R1 & R2 & R3). fold cs in R3. pose proof (cell_kind d g r D7 Ok_ Ti rows Rd 0%nat 0%nat row o ltac:(lia) ltac:(lia) R1 R2) as Ck.
    assert (In0 : TableSpec.in_region (r 0%nat 0%nat) 0 0) by (destruct Ti as (P0 & _); apply (P0 0%nat 0%nat); lia). destruct o as [b|].
    + destruct Ck as (Er2 & _). assert (Em : bc_merged b = (fst (bc_merged b), snd (bc_merged b))) by (destruct (bc_merged b); reflexivity).
      destruct (Bd 0%nat 0%nat row b _ _ R1 R2 Em (tile_sides d g r Ok_ Ti 0 0 0 0 _ _ ltac:(lia) ltac:(lia) Er2)) as (Wd & _).
      cbn [Nat.mul Nat.add] in R3. clearbody cs. destruct cs as [|c0 cs0]; [discriminate R3|]. cbn [nth_error] in R3. injection R3 as ->. unfold WholeModel.top_border. cbn [done lc_info fst]. rewrite Wd. reflexivity.
    + exfalso. destruct (r 0%nat 0%nat) as [[[i0 j0] m0] n0]. cbn [TableSpec.in_region TableSpec.reg_top TableSpec.reg_left] in *. apply Ck. f_equal; lia.
Qed.
End Page.
