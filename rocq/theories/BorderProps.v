(** C31, C58: borders of stream (borderless) tables.  Vocabulary in BorderSpec. *)
From Verif Require Import BorderProof5.
From Verif Require Import PathProof.
From Coq Require Import Relations Lqa Lia Permutation Sorting.Sorted.
Open Scope Q_scope.

(* ------------------------------------------------------------------ *)
(** * C31 *)
(** C31: whatever requests are served in whatever order, a border starts open, is fixed at
    most once, within one point of its range, and is never touched afterwards. *)
Theorem C31_fixed_once st rs1 rs2 k b v :
  nth_error (fold_left serve rs1 st) k = Some b -> bd_fin b = Some v ->
  nth_error (fold_left serve (rs1 ++ rs2) st) k = Some b /\ ((exists b0, nth_error st k = Some b0 /\ bd_fin b0 = None /\ same_frame b0 b) -> near_range b v).
Proof.
  intros E F. split.
  - rewrite fold_left_app. destruct (evolves_nth _ _ _ (serve_all_any rs2 (fold_left serve rs1 st)) k b E) as (y & Ey & Sy).
    rewrite (settled_fixed _ _ _ _ Sy F) in Ey. exact Ey.
  - intros (b0 & E0 & N0 & _). destruct (evolves_nth _ _ _ (serve_all_any rs1 st) k b0 E0) as (y & Ey & ((_ & Fl & Fh & _) & Sy)). rewrite E in Ey. injection Ey as <-.
    destruct Sy as [->|(_ & w & Fw & R & _)]; [congruence|]. unfold near_range in *. rewrite Fl, Fh. congruence.
Qed.
Print Assumptions C31_fixed_once.
Example C31_fixed_once_nonvacuous : exists b v, nth_error (fold_left serve [ByValue 1 5; ByValue 0 30] [new_border true 0 10 0 0 false; new_border true 2 4 0 0 false]) 1 = Some b /\ bd_fin b = Some v /\ v == 5.
Proof. eexists. eexists. split; [vm_compute; reflexivity|]. split; vm_compute; reflexivity. Qed.

(** [order], [rorder]: iteration orders of Python sets, any permutations. *)
(** C31: in the table produced from any lines, boxes, strokes and shadings, every fixed
    border is within one point of its range, and so is every position (fixed or not) when
    the range is not empty. *)
Theorem C31_positions_in_range (order : list nat -> list nat) (rorder : list (Q * Q) -> list (Q * Q)) lines ib ob strokes fills b : (forall l, Permutation l (rorder l)) -> 
  In b (fst (stream_borders order rorder lines ib ob strokes fills)) ->
  (forall v, bd_fin b = Some v -> near_range b v) /\ (bd_lo b <= bd_hi b -> near_range b (bd_value b)).
Proof.
  intros Hr I. unfold stream_borders in I. apply finalize_untouched in I; [|exact Hr|apply inner_sound].
  destruct I as (b0 & Sb & N & _). pose proof Sb as ((_ & Fl & Fh & _) & Sx). split.
  - intros v Fv. destruct Sx as [->|(_ & w & Fw & R & _)]; [congruence|]. unfold near_range in *. rewrite Fl, Fh. congruence.
  - intros L. pose proof (value_near _ b0 b Sb N ltac:(rewrite <- Fl, <- Fh; exact L)) as V. unfold near_range in *. rewrite Fl, Fh. exact V.
Qed.
Print Assumptions C31_positions_in_range.

(** C31: a border which an explicit, still unclassified stroke reaches gets its position from an
    explicit stroke, whatever shadings and neighbours suggest; and when that stroke has the direction of
    the border it is marked as a table border. *)
Theorem C31_strokes_have_priority (rorder : list (Q * Q) -> list (Q * Q)) strokes fills st k b s : (forall l, Permutation l (rorder l)) ->  well_formed st -> nth_error st k = Some b -> bd_fin b = None ->
  In s strokes -> sh_type s = R_UNDEFINED -> reaches st b s ->
  exists b' v i s0 s0', nth_error (fst (finalize rorder strokes fills st)) k = Some b' /\ bd_fin b' = Some v /\
    nth_error strokes i = Some s0 /\ sh_type s0 = R_UNDEFINED /\ from_stroke s0 b v (bd_width b') (bd_color b') /\
    nth_error (snd (finalize rorder strokes fills st)) i = Some s0' /\ (horizontal s0 = bd_h b -> s0' = set_type s0 R_BORDER).
Proof.
  intros Hr W E N Is D R. destruct (finalize_spec rorder strokes fills st Hr W) as (ds & st1 & st3 & Dd & E1 & E2 & _ & V1 & V2 & V3).
  pose proof (app_nth1 st ds k b E) as E'. pose proof (dummy_wf st ds W Dd) as W'.
  assert (R' : reaches (st ++ ds) b s).
  { destruct R as (R1 & R2 & R3). split; [exact R1|]. split; [exact R2|]. intros L U EL EU.
    destruct (W b (nth_error_In _ _ E)) as [(L0 & EL0 & _) (U0 & EU0 & _)].
    rewrite (app_nth1 st ds _ _ EL0) in EL. injection EL as <-. rewrite (app_nth1 st ds _ _ EU0) in EU. injection EU as <-. apply R3; assumption. }
  destruct (by_strokes_takes strokes (st ++ ds) k b s W' E' Is D R') as (b1 & v & Eb1 & Fb1).
  pose proof (by_strokes_given strokes (st ++ ds) k b W' E') as G. rewrite E2. rewrite <- E1 in Eb1.
  destruct (by_strokes strokes (st ++ ds)) as [st1' ss']. cbn [fst snd] in *. subst st1'.
  destruct G as (b' & Eb' & G). rewrite Eb1 in Eb'. injection Eb' as <-. destruct G as [->|(_ & i & s0 & s0' & w & G1 & G2 & G3 & G4 & G5 & G6)]; [congruence|].
  assert (w = v) by congruence. subst w.
  destruct (evolves_nth _ _ _ V2 k b1 Eb1) as (b2 & Eb2 & S2). rewrite (settled_fixed _ _ _ _ S2 Fb1) in *.
  destruct (evolves_nth _ _ _ V3 k b1 Eb2) as (b3 & Eb3 & S3). rewrite (settled_fixed _ _ _ _ S3 Fb1) in *.
  exists b1, v, i, s0, s0'. repeat (split; [assumption|]). assumption.
Qed.
Print Assumptions C31_strokes_have_priority.
(** C31: the complete list of reasons: an explicit stroke, a side of a shading, the layout of the
    open borders; besides the given borders there are only reference borders, each with the range of
    a given horizontal border. *)
Theorem C31_provenance (rorder : list (Q * Q) -> list (Q * Q)) strokes fills st : (forall l, Permutation l (rorder l)) ->  well_formed st ->
  exists ds st3, (forall d, In d ds -> dummy_of st d) /\
    evolves (fun b v w c => from_strokes strokes b v w c \/ from_strokes (flat_map fill_strokes fills) b v w c \/ from_layout st3 b v w c)
      (st ++ ds) (fst (finalize rorder strokes fills st)) /\ evolves anything (st ++ ds) st3.
Proof. intros Hr W. exact (finalize_evolves rorder Hr strokes fills st W). Qed.
Print Assumptions C31_provenance.
Lemma fill_strokes_plain fills s : In s (flat_map fill_strokes fills) -> sh_width s = 0 /\ sh_color s = 0%Z /\ sh_type s = R_UNDEFINED.
Proof.
  intros I. apply in_flat_map in I. destruct I as (f & _ & I). unfold fill_strokes in I. destruct (determined f || _); [destruct I|]. cbv zeta in I.
  rewrite !side_stroke_h, !side_stroke_v in I. destruct I as [<-|[<-|[<-|[<-|[]]]]]; cbn; auto.
Qed.
(** C31: the strokes a shading contributes: none if it is already classified or white, otherwise
    exactly its four sides (direction, position, ends), without width and colour. *)
Theorem C31_shading_sides f : rx0 (sh_bbox f) + (1 # 1000) <= rx1 (sh_bbox f) -> ry0 (sh_bbox f) + (1 # 1000) <= ry1 (sh_bbox f) ->
  let b := sh_bbox f in
  (sh_type f <> R_UNDEFINED \/ sh_color f = 16777215%Z -> fill_strokes f = []) /\
  (sh_type f = R_UNDEFINED -> sh_color f <> 16777215%Z ->
     map (fun s => (horizontal s, across s, low_end s, high_end s)) (fill_strokes f) =
       [(true, ry0 b, rx0 b, rx1 b); (true, ry1 b, rx0 b, rx1 b); (false, rx0 b, ry0 b, ry1 b); (false, rx1 b, ry0 b, ry1 b)] /\
     forall s, In s (fill_strokes f) -> sh_width s = 0 /\ sh_color s = 0%Z).
Proof.
  intros Hx Hy. cbv zeta. split.
  - intros H. unfold fill_strokes. assert (E : determined f || Z.eqb (sh_color f) WHITE = true); [|rewrite E; reflexivity].
    destruct H as [H|H]; apply orb_true_iff; [left|right; rewrite H; reflexivity]. unfold determined. destruct (sh_type f); try reflexivity. contradiction.
  - intros T C. split; [|intros s I; destruct (fill_strokes_plain [f] s) as (K1 & K2 & _); [cbn [flat_map]; rewrite app_nil_r; exact I|auto]].
    unfold fill_strokes. assert (E : determined f || Z.eqb (sh_color f) WHITE = false).
    { apply orb_false_iff. split; [unfold determined; rewrite T; reflexivity|]. apply Z.eqb_neq. exact C. }
    rewrite E. cbv zeta. rewrite !side_stroke_h, !side_stroke_v. cbn [map].
    assert (A : forall x0 x1 y, horizontal (mkShape KStroke (rround (stroke_rect x0 y x1 y 0)) 0 R_UNDEFINED x0 y x1 y 0 0) = true).
    { intros. unfold horizontal. cbn [sh_y0 sh_y1]. apply qlt_iff. unfold qabs. qcases; lra. }
    assert (B : forall x, horizontal (mkShape KStroke (rround (stroke_rect x (ry0 (sh_bbox f)) x (ry1 (sh_bbox f)) 0)) 0 R_UNDEFINED x (ry0 (sh_bbox f)) x (ry1 (sh_bbox f)) 0 0) = false).
    { intros. unfold horizontal. cbn [sh_y0 sh_y1]. unfold qabs. qcases; lra || reflexivity. }
    unfold across, low_end, high_end. rewrite !A, !B. cbn [sh_x0 sh_y0 sh_x1 sh_y1]. reflexivity.
Qed.
Print Assumptions C31_shading_sides.
(** C31: a visible border (width or colour other than 0) copies the style and position of an explicit
    stroke of its own direction. *)
Theorem C31_visible_borders (order : list nat -> list nat) (rorder : list (Q * Q) -> list (Q * Q)) lines ib ob strokes fills b : (forall l, Permutation l (rorder l)) ->  In b (fst (stream_borders order rorder lines ib ob strokes fills)) ->
  (~ bd_width b == 0 \/ bd_color b <> 0%Z) ->
  exists s, In s strokes /\ sh_type s = R_UNDEFINED /\ horizontal s = bd_h b /\ bd_fin b = Some (across s) /\ bd_width b = sh_width s /\ bd_color b = sh_color s.
Proof.
  intros Hr I Vis. unfold stream_borders in I. set (st := inner order _ _ _ _ _ _ _) in I.
  assert (Sd : sound st) by apply inner_sound. destruct Sd as [W U].
  destruct (finalize_evolves rorder Hr strokes fills st W) as (ds & st3 & D & V & _).
  destruct (evolves_In _ _ _ _ V I) as (x & Ix & ((Fh & _) & Sx)).
  assert (X : bd_width x = 0 /\ bd_color x = 0%Z).
  { apply in_app_or in Ix. destruct Ix as [Ix|Ix]; [split; apply (U x Ix)|]. destruct (D x Ix) as (_ & _ & _ & Wd & C & _). auto. }
  destruct X as [Xw Xc]. destruct Sx as [->|(N & v & Fv & _ & _ & P)]; [destruct Vis as [K|K]; [rewrite Xw in K; exfalso; apply K; reflexivity|contradiction]|].
  assert (Hid : bd_width b = bd_width x -> bd_color b = bd_color x -> False).
  { intros K1 K2. destruct Vis as [K|K]; [rewrite K1, Xw in K; apply K; reflexivity|rewrite K2, Xc in K; apply K; reflexivity]. }
  destruct P as [(s & Is & T & [(H & Ev & Ew & Ec)|(_ & _ & K1 & K2)])|[(s & Is & T & [(H & Ev & Ew & Ec)|(_ & _ & K1 & K2)])|(K1 & K2 & _)]]; try (exfalso; apply Hid; assumption);
    [exists s; rewrite Fh; repeat split; congruence|]. exfalso. destruct (fill_strokes_plain fills s Is) as (K1 & K2 & _).
  destruct Vis as [K|K]; [apply K; rewrite Ew, K1; reflexivity|apply K; congruence].
Qed.
Print Assumptions C31_visible_borders.
(** C31: explicit strokes are kept; one is marked as a table border only if it was undefined and
    gives a border of its direction its position and style. *)
Theorem C31_marked_strokes (rorder : list (Q * Q) -> list (Q * Q)) strokes fills st : (forall l, Permutation l (rorder l)) ->  well_formed st ->
  let st' := fst (finalize rorder strokes fills st) in
  Forall2 (fun s s' => s' = s \/ (sh_type s = R_UNDEFINED /\ s' = set_type s R_BORDER /\
    exists k b', nth_error st' k = Some b' /\ bd_h b' = horizontal s /\ bd_fin b' = Some (across s) /\ bd_width b' = sh_width s /\ bd_color b' = sh_color s))
    strokes (snd (finalize rorder strokes fills st)).
Proof.
  intros Hr W. cbv zeta. destruct (finalize_spec rorder strokes fills st Hr W) as (ds & st1 & st3 & Dd & E1 & E2 & _ & V1 & V2 & V3).
  pose proof (by_strokes_marks strokes (st ++ ds) (dummy_wf st ds W Dd)) as M. rewrite E2.
  destruct (by_strokes strokes (st ++ ds)) as [st1' ss']. cbn [fst snd] in *. subst st1'.
  eapply Forall2_imp; [|exact M]. intros s s' [->|(T & -> & k & b & b' & Eb & N & H & Eb' & F & Wd & C)]; [left; reflexivity|right].
  split; [exact T|]. split; [reflexivity|].
  destruct (evolves_nth _ _ _ V1 k b Eb) as (y & Ey & ((Fh & _) & _)). rewrite Eb' in Ey. injection Ey as <-.
  destruct (evolves_nth _ _ _ V2 k b' Eb') as (b2 & Eb2 & S2). rewrite (settled_fixed _ _ _ _ S2 F) in *.
  destruct (evolves_nth _ _ _ V3 k b' Eb2) as (b3 & Eb3 & S3). rewrite (settled_fixed _ _ _ _ S3 F) in *.
  exists k, b'. repeat split; try assumption. congruence.
Qed.
Print Assumptions C31_marked_strokes.
(** C31: the layout step fixes every open border unless its range comes within two points of the range of
    another open border of that direction. *)
Theorem C31_layout_completes  h st k b :  In k (open_borders h st) -> nth_error st k = Some b -> bd_lo b < bd_hi b ->
  nth_error (by_layout (open_borders h st) st) k = Some b ->
  exists k' b', k' <> k /\ In k' (open_borders h st) /\ nth_error st k' = Some b' /\ bd_lo b' - 2 <= bd_hi b /\ bd_lo b - 2 <= bd_hi b'.
Proof.
  intros Ik Eb L Ef. set (ks := open_borders h st) in *.
  assert (ND : NoDup ks) by (apply NoDup_filter, seq_NoDup).
  assert (Op : forall k, In k ks -> exists b, nth_error st k = Some b /\ bd_fin b = None) by (intros j Ij; apply open_borders_In in Ij; destruct Ij as (x & Ex & Nx & _); eauto).
  destruct (candidate_in_range (pick ks st) b) as (x & s & Ic & Hx); [apply pick_In; exists k; split; assumption|exact L|].
  assert (R : near_range b x) by (unfold near_range; split; lra).
  destruct (by_layout_open ks st ND Op k b Ik Eb Ef x s Ic R) as (k' & b' & Ik' & Nk & Eb' & R' & _).
  exists k', b'. unfold near_range in *. repeat split; try assumption; lra.
Qed.
Print Assumptions C31_layout_completes.

(* ------------------------------------------------------------------ *)
(** * C58 *)
(** C58: when no line crosses the vertical [x = g] and there are lines on both sides, a full-height
    vertical border is drawn between them (to within one point), from the top to the bottom border. *)
Theorem C58_gap_has_border (order : list nat -> list nat) (rorder : list (Q * Q) -> list (Q * Q)) lines ib ob strokes fills g : (forall l, Permutation l (order l)) -> (forall l, Permutation l (rorder l)) -> 
  (forall e, In e lines -> proper (e_bbox e) /\ rect_decimal (e_bbox e)) ->
  (forall e, In e lines -> rx1 (e_bbox e) < g \/ g < rx0 (e_bbox e)) ->
  (exists e, In e lines /\ 2 <= rx1 (e_bbox e) < g) -> (exists e, In e lines /\ g < rx0 (e_bbox e)) ->
  exists s top bottom, In s (stream_strokes order rorder lines ib ob strokes fills) /\ sh_type s = R_BORDER /\ sh_x1 s = sh_x0 s /\
    (forall e, In e lines -> rx1 (e_bbox e) < g -> rx1 (e_bbox e) - 1 <= sh_x0 s) /\ (forall e, In e lines -> g < rx0 (e_bbox e) -> sh_x0 s <= rx0 (e_bbox e) + 1) /\
    nth_error (fst (stream_borders order rorder lines ib ob strokes fills)) 0 = Some top /\ sh_y0 s = bd_value top /\
    nth_error (fst (stream_borders order rorder lines ib ob strokes fills)) 1 = Some bottom /\ sh_y1 s = bd_value bottom.
Proof.
  intros Ho Hr Hl Hg (el & Il & Ll2 & Ll) Er. 
  destruct (gap_columns order Ho lines g Hl Hg (ex_intro _ el (conj Il Ll)) Er) as (pre & c & c' & post & E & Cl & Cr & Cg1 & Cg2).
  destruct lines as [|l0 lt]; [destruct Il|]. set (lines := l0 :: lt) in *.
  destruct (inner_border order (length lt) lines ib ob pre c c' post E) as (k & x & Ex & Hx & Lx & Ux & lx & ux & rx).
  set (st := inner order (S (length lt)) lines 0 1 2 3 (outer_borders ib ob)) in *.
  assert (Sd : sound st) by apply inner_sound. pose proof (proj2 Sd x (nth_error_In _ _ Ex)) as [Nx _].
  destruct (finalize_nth rorder Hr strokes fills st k x (proj1 Sd) Ex) as (b & Eb & Sb).
  pose proof Sb as ((Fh & Fl & Fu & Fll & Fuu) & Sb').
  assert (Rb : bd_ref b = false) by (destruct Sb' as [->|(_ & w & _ & _ & R & _)]; [exact rx|exact R]).
  assert (V : near_range x (bd_value b)) by (apply (value_near anything x b); [exact Sb|exact Nx|rewrite Lx, Ux; lra]).
  unfold near_range in V. rewrite Lx, Ux in V.
  assert (P2 : 2 <= rx1 (coll_bbox c)) by (specialize (Cl el Il Ll); lra).
  destruct (drawn_v order rorder Hr lines ib ob strokes fills k b Eb Rb ltac:(congruence) ltac:(lra)) as (s & Is & T & X0 & X1 & top & bottom & Et & Eb2 & Y0 & Y1).
  rewrite Fll, lx in Et. rewrite Fuu, ux in Eb2.
  exists s, top, bottom. split; [exact Is|]. split; [exact T|]. split; [congruence|].
  split; [intros e Ie Le; specialize (Cl e Ie Le); rewrite X0; lra|].
  split; [intros e Ie Le; specialize (Cr e Ie Le); rewrite X0; lra|]. auto.
Qed.
Print Assumptions C58_gap_has_border.
(** C58: the outermost borders enclose the box [ib] of the lines (to within one point) and stay inside the
    allowed area [ob] (to within one point). *)
Theorem C58_outer_borders (order : list nat -> list nat) (rorder : list (Q * Q) -> list (Q * Q)) lines ib ob strokes fills : (forall l, Permutation l (rorder l)) ->  Rect.covers ob ib ->
  exists t b l r, nth_error (fst (stream_borders order rorder lines ib ob strokes fills)) 0 = Some t /\ nth_error (fst (stream_borders order rorder lines ib ob strokes fills)) 1 = Some b /\
    nth_error (fst (stream_borders order rorder lines ib ob strokes fills)) 2 = Some l /\ nth_error (fst (stream_borders order rorder lines ib ob strokes fills)) 3 = Some r /\
    bd_ref t = false /\ bd_ref b = false /\ bd_ref l = false /\ bd_ref r = false /\
    ry0 ob - 1 <= bd_value t <= ry0 ib + 1 /\ ry1 ib - 1 <= bd_value b <= ry1 ob + 1 /\ rx0 ob - 1 <= bd_value l <= rx0 ib + 1 /\ rx1 ib - 1 <= bd_value r <= rx1 ob + 1.
Proof.
  intros Hr (C1 & C2 & C3 & C4). unfold stream_borders. set (st := inner order _ _ _ _ _ _ _).
  assert (Sd : sound st) by apply inner_sound.
  assert (G : forall k x, nth_error (outer_borders ib ob) k = Some x -> bd_lo x <= bd_hi x -> bd_ref x = false ->
    exists y, nth_error (fst (finalize rorder strokes fills st)) k = Some y /\ bd_ref y = false /\ bd_lo x - 1 <= bd_value y <= bd_hi x + 1).
  { intros k x Ex Lx Rx. destruct (inner_outer order (length lines) lines ib ob k x Ex) as (x' & Ex' & Hx'). fold st in Ex'.
    pose proof (proj2 Sd x' (nth_error_In _ _ Ex')) as [Nx' _].
    destruct (finalize_nth rorder Hr strokes fills st k x' (proj1 Sd) Ex') as (y & Ey & Sy).
    exists y. split; [exact Ey|]. assert (Fx : bd_lo x' = bd_lo x /\ bd_hi x' = bd_hi x /\ bd_ref x' = false) by (destruct Hx' as [->| ->]; auto).
    destruct Fx as (F1 & F2 & F3). split; [destruct Sy as (_ & [->|(_ & w & _ & _ & R & _)]); [exact F3|exact R]|].
    pose proof (value_near _ _ _ Sy Nx' ltac:(rewrite F1, F2; exact Lx)) as V. unfold near_range in V. rewrite F1, F2 in V. exact V. }
  destruct (G 0%nat _ eq_refl) as (t & Et & Rt & Vt); [exact C2|reflexivity|].
  destruct (G 1%nat _ eq_refl) as (b & Eb & Rb & Vb); [exact C4|reflexivity|].
  destruct (G 2%nat _ eq_refl) as (l & El & Rl & Vl); [exact C1|reflexivity|].
  destruct (G 3%nat _ eq_refl) as (r & Er & Rr & Vr); [exact C3|reflexivity|].
  exists t, b, l, r. repeat split; try assumption; try (exact (proj1 Vt) || exact (proj2 Vt) || exact (proj1 Vb) || exact (proj2 Vb) || exact (proj1 Vl) || exact (proj2 Vl) || exact (proj1 Vr) || exact (proj2 Vr)).
Qed.
Print Assumptions C58_outer_borders.
(** C58: every stroke drawn is parallel to an axis and ends on two borders of the other direction. *)
Theorem C58_strokes_meet_borders (order : list nat -> list nat) (rorder : list (Q * Q) -> list (Q * Q)) lines ib ob strokes fills s : (forall l, Permutation l (rorder l)) ->  In s (stream_strokes order rorder lines ib ob strokes fills) ->
  let st := fst (stream_borders order rorder lines ib ob strokes fills) in
  sh_type s = R_BORDER /\ exists b L U, In b st /\ In L st /\ In U st /\ bd_ref b = false /\ bd_h L = negb (bd_h b) /\ bd_h U = negb (bd_h b) /\
    sh_width s = bd_width b /\ sh_color s = bd_color b /\
    (if bd_h b then sh_y0 s = bd_value b /\ sh_y1 s = bd_value b /\ sh_x0 s = bd_value L /\ sh_x1 s = bd_value U
     else sh_x0 s = bd_value b /\ sh_x1 s = bd_value b /\ sh_y0 s = bd_value L /\ sh_y1 s = bd_value U).
Proof.
  intros Hr I. cbv zeta. unfold stream_strokes in I. cbv zeta in I. set (st := fst (stream_borders order rorder lines ib ob strokes fills)) in *.
  apply filter_In in I. destruct I as [I _]. apply in_flat_map in I. destruct I as (b & Ib & I).
  assert (Rb : bd_ref b = false) by (unfold border_to_stroke in I; destruct (bd_ref b); [destruct I|reflexivity]).
  pose proof (stream_wf order rorder Hr lines ib ob strokes fills b Ib) as [(L & EL & HL) (U & EU & HU)].
  destruct (border_stroke st b L U Rb EL EU) as (s' & Es & T & W & C & Hh & Hv & _). rewrite Es in I. destruct I as [<-|[]].
  split; [exact T|]. exists b, L, U. split; [exact Ib|]. split; [eapply nth_error_In; exact EL|]. split; [eapply nth_error_In; exact EU|].
  repeat (split; [assumption|]). destruct (bd_h b); auto.
Qed.
Print Assumptions C58_strokes_meet_borders.
(** C58: the recursion over the lines ends: with at least as many steps as lines the result no longer
    depends on the allowance. *)
Theorem C58_terminates (order : list nat -> list nat) n m ls T B L R st : (forall l, Permutation l (order l)) ->  (length ls <= n)%nat -> (length ls <= m)%nat -> inner order n ls T B L R st = inner order m ls T B L R st.
Proof. intros Ho Hn Hm. exact (inner_fuel order Ho n m ls Hn Hm T B L R st). Qed.
Print Assumptions C58_terminates.

Definition ex_el (x0 y0 x1 y1 : Q) : elem := mkElem 0 (mkRect x0 y0 x1 y1) LEFT_RIGHT.
Definition ex_lines : list elem := [ex_el 50 100 90 110; ex_el 120 100 160 110; ex_el 50 115 100 125; ex_el 125 116 150 126].
Definition ex_ib : rect := mkRect 50 100 160 126.
Definition ex_ob : rect := mkRect 0 80 600 200.
Example C58_gap_nonvacuous :
  (forall e, In e ex_lines -> proper (e_bbox e) /\ rect_decimal (e_bbox e)) /\ (forall e, In e ex_lines -> rx1 (e_bbox e) < 110 \/ 110 < rx0 (e_bbox e)) /\ Rect.covers ex_ob ex_ib /\
  map (fun s => (Qred (sh_x0 s), Qred (sh_y0 s), Qred (sh_x1 s), Qred (sh_y1 s))) (stream_strokes (fun l => l) (fun l => l) ex_lines ex_ib ex_ob [] []) =
    [(25, 90, 380, 90); (25, 163, 380, 163); (25, 90, 25, 163); (380, 90, 380, 163); (110, 90, 110, 163)].
Proof.
  assert (D : forall z : Z, decimal 10 (inject_Z z)) by (intros z; exists (z * 10)%Z; unfold Qeq; cbn; lia).
  split; [|split; [|split]].
  - intros e I. cbn in I. destruct I as [<-|[<-|[<-|[<-|[]]]]]; (split; [split; reflexivity|]); repeat split; apply D.
  - intros e I. cbn in I. destruct I as [<-|[<-|[<-|[<-|[]]]]]; cbn; [left|right|left|right]; reflexivity.
  - repeat split; discriminate.
  - vm_compute. reflexivity.
Qed.
(** With explicit strokes and a shading: priority and marks. *)
Definition ex_rule : shape := new_stroke 40 128 300 128 (1 # 2) 255 R_UNDEFINED.
Definition ex_shade : shape := new_fill (mkRect 30 90 200 150) 100 R_UNDEFINED.
Definition ex_st : bs := inner (fun l => l) 4 ex_lines 0 1 2 3 (outer_borders ex_ib ex_ob).
Example C31_priority_nonvacuous :
  well_formed ex_st /\ (exists b, nth_error ex_st 1 = Some b /\ bd_fin b = None /\ reaches ex_st b ex_rule) /\
  map sh_type (snd (finalize (fun l => l) [ex_rule] [ex_shade] ex_st)) = [R_BORDER] /\
  map (fun b => (Qred (bd_value b), bd_color b)) (firstn 6 (fst (finalize (fun l => l) [ex_rule] [ex_shade] ex_st))) =
    [(90, 0%Z); (128, 255%Z); (40, 0%Z); (300, 0%Z); (110, 0%Z); (225 # 2, 0%Z)].
Proof.
  split; [apply inner_sound|]. split; [|split; vm_compute; reflexivity].
  eexists. split; [vm_compute; reflexivity|]. split; [reflexivity|]. split; [reflexivity|]. split.
  - unfold near_range. cbn. split; intro K; discriminate.
  - intros L U EL EU. left. vm_compute in EL. injection EL as <-. vm_compute. discriminate.
Qed.

(** Finding: the layout step can leave a border open although its range is not empty: its candidate
    positions all meet neighbours which were fixed first.  (Its position is then the middle of the range.) *)
Definition ex_skip : bs :=
  [new_border true 10 30 7 8 false; new_border true 0 20 7 8 false; new_border true 0 10 7 8 false; new_border true 0 10 7 8 false;
   new_border true 20 40 7 8 false; new_border true 30 40 7 8 false; new_border true 30 40 7 8 false;
   new_border false 0 5 0 1 false; new_border false 100 105 0 1 false].
Theorem C31_every_border_fixed_refuted : well_formed ex_skip /\ exists b, nth_error (fst (finalize (fun l => l) [] [] ex_skip)) 0 = Some b /\ bd_fin b = None /\ bd_ref b = false /\ bd_lo b < bd_hi b.
Proof.
  split.
  - intros b I. cbn in I. repeat (destruct I as [<-|I]; [cbn; split; eexists; split; reflexivity|]). destruct I.
  - eexists. split; [vm_compute; reflexivity|]. repeat split; vm_compute; reflexivity.
Qed.
Print Assumptions C31_every_border_fixed_refuted.
(** Finding: a stroke entirely to the right of the border (here from 500 to 550, the border ending left
    of 105) still fixes it and gives it its colour: the code skips a stroke only if it starts after the
    left bound AND ends before the right one. *)
Definition ex_far : bs := [new_border true 10 30 2 3 false; new_border true 50 60 2 3 false; new_border false 0 5 0 1 false; new_border false 100 105 0 1 false].
Theorem C31_foreign_stroke_refuted : well_formed ex_far /\
  let s := new_stroke 500 20 550 20 1 255 R_UNDEFINED in
  (forall b, In b ex_far -> bd_h b = false -> bd_hi b + 300 < sh_x0 s) /\
  exists b, nth_error (fst (finalize (fun l => l) [s] [] ex_far)) 0 = Some b /\ bd_fin b = Some 20 /\ bd_color b = 255%Z /\ snd (finalize (fun l => l) [s] [] ex_far) = [set_type s R_BORDER].
Proof.
  split; [|cbv zeta; split].
  - intros b I. cbn in I. repeat (destruct I as [<-|I]; [cbn; split; eexists; split; reflexivity|]). destruct I.
  - intros b I H. cbn in I. repeat (destruct I as [<-|I]; [cbn in H; try discriminate; reflexivity|]). destruct I.
  - eexists. split; [vm_compute; reflexivity|]. split; [reflexivity|]. split; [reflexivity|vm_compute; reflexivity].
Qed.
Print Assumptions C31_foreign_stroke_refuted.
(** Finding: [_add_full_dummy_borders] is meant to add a reference border only where there is none; it
    duplicates existing ones (the look-up key never matches). *)
Theorem C58_duplicate_dummies_refuted : exists i j a b, i <> j /\ nth_error (add_dummies (fun l => l) ex_st) i = Some a /\ nth_error (add_dummies (fun l => l) ex_st) j = Some b /\ a = b.
Proof. exists 5%nat, 9%nat. eexists. eexists. split; [discriminate|]. split; [vm_compute; reflexivity|]. split; [vm_compute; reflexivity|reflexivity]. Qed.
Print Assumptions C58_duplicate_dummies_refuted.

(** C58: the limits above and below a stream table: the end of some block above (or the page top), the start
    of the first block below (or the page bottom); so the area encloses the table's own box. *)
Theorem C58_limits y0 y1 lower upper blocks : let '(a, b) := boundaries y0 y1 lower upper blocks in
  (a = lower \/ exists r, In r blocks /\ ry1 r = a /\ a < y0) /\ (b = upper \/ exists r, In r blocks /\ ry0 r = b /\ y1 < b) /\
  (lower <= y0 -> a <= y0) /\ (y1 <= upper -> y1 <= b).
Proof.
  revert lower. induction blocks as [|r t IH]; intros lower; cbn [boundaries]; [auto|]. cbv zeta.
  set (lower' := if qlt (ry1 r) y0 then ry1 r else lower).
  assert (Hl : lower' = lower \/ (ry1 r = lower' /\ lower' < y0)) by (unfold lower'; destruct (qlt_spec (ry1 r) y0); auto).
  assert (Hle : lower <= y0 -> lower' <= y0) by (destruct Hl as [->|[_ H]]; intros; lra).
  destruct (qlt_spec y1 (ry0 r)) as [K|K].
  - split; [destruct Hl as [->|[E H]]; [left; reflexivity|right; exists r; split; [left; reflexivity|auto]]|].
    split; [right; exists r; split; [left; reflexivity|auto]|]. split; [exact Hle|intros; lra].
  - specialize (IH lower'). destruct (boundaries y0 y1 lower' upper t) as [a b]. destruct IH as (A & B & C & D). split; [|split; [|split]].
    + destruct A as [->|(x & Ix & X)]; [destruct Hl as [->|[E H]]; [left; reflexivity|right; exists r; split; [left; reflexivity|auto]]|right; exists x; split; [right; exact Ix|exact X]].
    + destruct B as [->|(x & Ix & X)]; [left; reflexivity|right; exists x; split; [right; exact Ix|exact X]].
    + intros L. apply C. apply Hle. exact L.
    + exact D.
Qed.
Print Assumptions C58_limits.
(** C58: the blocks of a page in order from top to bottom leave exactly the free space around the table. *)
Theorem C58_limits_exact y0 y1 lower upper blocks :
  StronglySorted (fun a b => ry0 a <= ry0 b /\ ry1 a <= ry1 b) blocks -> y0 <= y1 -> (forall r, In r blocks -> ry0 r <= ry1 r /\ lower <= ry1 r /\ ry0 r <= upper) ->
  let '(a, b) := boundaries y0 y1 lower upper blocks in
  (forall r, In r blocks -> ry1 r < y0 -> ry1 r <= a) /\ (forall r, In r blocks -> y1 < ry0 r -> b <= ry0 r).
Proof.
  intros S Y H.
  assert (G : let '(a, b) := boundaries y0 y1 lower upper blocks in lower <= a /\ (forall r, In r blocks -> ry1 r < y0 -> ry1 r <= a) /\ (forall r, In r blocks -> y1 < ry0 r -> b <= ry0 r)).
  { revert lower H. induction S as [|r t S IH Hr]; intros lower H; cbn [boundaries]; [split; [lra|split; intros r []]|]. cbv zeta.
    rewrite Forall_forall in Hr. destruct (H r (or_introl eq_refl)) as (H1 & H2 & H3).
    set (lower' := if qlt (ry1 r) y0 then ry1 r else lower).
    assert (Hl' : lower <= lower' /\ (ry1 r < y0 -> lower' = ry1 r)) by (unfold lower'; destruct (qlt_spec (ry1 r) y0); split; intros; try lra; reflexivity).
    destruct (qlt_spec y1 (ry0 r)) as [K|K].
    - split; [lra|]. split.
      + intros x [<-|Ix] Lx; [lra|]. destruct (Hr x Ix) as [A B]. destruct (H x (or_intror Ix)) as (C & _). lra.
      + intros x [<-|Ix] Lx; [lra|]. destruct (Hr x Ix) as [A B]. lra.
    - assert (Hl : forall x, In x t -> ry0 x <= ry1 x /\ lower' <= ry1 x /\ ry0 x <= upper).
      { intros x Ix. destruct (H x (or_intror Ix)) as (C & D & E). destruct (Hr x Ix) as [A B]. unfold lower'. destruct (qlt_spec (ry1 r) y0); repeat split; lra. }
      specialize (IH lower' Hl). destruct (boundaries y0 y1 lower' upper t) as [a b]. destruct IH as (A & B & C). split; [lra|]. split.
      + intros x [<-|Ix] Lx; [destruct Hl' as [_ Z]; rewrite <- (Z Lx); exact A|apply B; assumption].
      + intros x [<-|Ix] Lx; [lra|apply C; assumption]. }
  destruct (boundaries y0 y1 lower upper blocks) as [a b]. apply G.
Qed.
Print Assumptions C58_limits_exact.
Example C58_limits_nonvacuous : let bs := [mkRect 0 0 100 30; mkRect 0 10 100 40; mkRect 0 70 100 90; mkRect 0 95 100 99] in
  StronglySorted (fun a b => ry0 a <= ry0 b /\ ry1 a <= ry1 b) bs /\ (forall r, In r bs -> ry0 r <= ry1 r /\ 0 <= ry1 r /\ ry0 r <= 500) /\ boundaries 50 60 0 500 bs = (40, 70).
Proof.
  cbv zeta. split; [|split; [|reflexivity]].
  - repeat constructor; cbn; discriminate.
  - intros r I. cbn in I. repeat (destruct I as [<-|I]; [cbn; repeat split; discriminate|]). destruct I.
Qed.
(** Finding: the upper limit is the last block above in reading order, not the nearest one: here a block
    reaches down to 90, the table starts at 100, and the limit is 20, so the table may cover the block. *)
Theorem C58_nearest_block_refuted : let bs := [mkRect 0 0 100 90; mkRect 200 10 300 20] in
  boundaries 100 120 0 500 bs = (20, 500) /\ exists r, In r bs /\ 20 < ry1 r /\ ry1 r < 100.
Proof. cbv zeta. split; [reflexivity|]. exists (mkRect 0 0 100 90). split; [left; reflexivity|split; reflexivity]. Qed.
Print Assumptions C58_nearest_block_refuted.
(** C58: for lines on the page, the box of a stream table covers exactly its lines and its area, limited by
    the neighbouring blocks, covers that box. *)
Theorem C58_area page blocks lines : lines <> [] -> (forall e, In e lines -> Rect.covers page (e_bbox e)) ->
  let ib := tight_box lines in
  (forall e, In e lines -> Rect.covers ib (e_bbox e)) /\ (forall c, (forall e, In e lines -> Rect.covers c (e_bbox e)) -> Rect.covers c ib) /\
  Rect.covers (outer_box page blocks ib) ib.
Proof.
  intros N H. cbv zeta.
  assert (M : forall f : elem -> Q, map f lines <> []) by (intros f; destruct lines; [congruence|discriminate]).
  assert (Mn : forall f : elem -> Q, (forall e, In e lines -> TableModel.list_min (map f lines) <= f e) /\ exists e, In e lines /\ TableModel.list_min (map f lines) = f e).
  { intros f. destruct (list_min_spec _ (M f)) as (I & L). split; [intros e Ie; apply L, in_map, Ie|]. apply in_map_iff in I. destruct I as (e & E & I). exists e. auto. }
  assert (Mx : forall f : elem -> Q, (forall e, In e lines -> f e <= TableModel.list_max (map f lines)) /\ exists e, In e lines /\ TableModel.list_max (map f lines) = f e).
  { intros f. destruct (list_max_spec _ (M f)) as (I & L). split; [intros e Ie; apply L, in_map, Ie|]. apply in_map_iff in I. destruct I as (e & E & I). exists e. auto. }
  destruct (Mn (fun e => rx0 (e_bbox e))) as (A1 & a & Ia & A2). destruct (Mn (fun e => ry0 (e_bbox e))) as (B1 & b & Ib & B2).
  destruct (Mx (fun e => rx1 (e_bbox e))) as (C1 & c & Ic & C2). destruct (Mx (fun e => ry1 (e_bbox e))) as (D1 & d & Id & D2).
  assert (Cv : forall x, (forall e, In e lines -> Rect.covers x (e_bbox e)) -> Rect.covers x (tight_box lines)).
  { intros x Hx. unfold tight_box, Rect.covers. cbn [rx0 ry0 rx1 ry1]. rewrite A2, B2, C2, D2. repeat split; apply (Hx _); assumption. }
  split; [intros e Ie; unfold tight_box, Rect.covers; cbn [rx0 ry0 rx1 ry1]; repeat split; [apply A1|apply B1|apply C1|apply D1]; exact Ie|]. split; [exact Cv|].
  destruct (Cv page H) as (P1 & P2 & P3 & P4). unfold outer_box. set (ib := tight_box lines) in *.
  pose proof (C58_limits (ry0 ib) (ry1 ib) (ry0 page) (ry1 page) blocks) as L. destruct (boundaries (ry0 ib) (ry1 ib) (ry0 page) (ry1 page) blocks) as [u v].
  destruct L as (_ & _ & L1 & L2). unfold Rect.covers. cbn [rx0 ry0 rx1 ry1]. repeat split; auto.
Qed.
Print Assumptions C58_area.
Example C58_area_nonvacuous : tight_box ex_lines = ex_ib /\ outer_box (mkRect 0 0 600 800) [mkRect 50 20 500 80; mkRect 50 200 500 300] ex_ib = ex_ob.
Proof. split; vm_compute; reflexivity. Qed.

(** C58: the strokes taken into account for a stream table are those inside its area (rounded to
    one decimal); without any drawn border there is no table. *)
Theorem C58_table_strokes (order : list nat -> list nat) (rorder : list (Q * Q) -> list (Q * Q)) page blocks strokes fills clearance max_width lines :
  let ib := tight_box lines in let ob := outer_box page blocks ib in
  (forall s, proper (rround ob) -> proper (sh_bbox s) -> In s (explicit_strokes ob strokes) <-> In s strokes /\ Rect.covers (rround ob) (sh_bbox s)) /\
  (stream_table order rorder page blocks strokes fills clearance max_width lines = None <-> stream_strokes order rorder lines ib ob (explicit_strokes ob strokes) fills = []).
Proof.
  cbv zeta. split.
  - intros s Po Ps. unfold explicit_strokes. rewrite filter_In. unfold rcontains. rewrite !proper_nonempty by assumption. rewrite !andb_true_iff, !qle_iff. unfold Rect.covers. tauto.
  - unfold stream_table. cbv zeta. destruct (stream_strokes order rorder lines (tight_box lines) _ _ fills); split; congruence.
Qed.
Print Assumptions C58_table_strokes.
