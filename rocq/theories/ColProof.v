(** The layout table of a page of two columns. *)
From Verif Require GeomProof TableProps TableSpec TableProof.
From Verif Require Import AssignSpec AssignProof.
From Verif Require Import CleanModel CleanSpec FlowModel LayoutModel WholeModel WholeSpec WholeProof2 PlaceSpec PlaceProof3 ColSpec.
From Coq Require Import Lia Lqa Permutation.
Notation length := List.length.
Open Scope Q_scope.

Definition as_line (r : rect) : line := mkLine r LEFT_RIGHT [] None false.
Lemma boxes_hull rs : rs <> [] -> (forall r, In r rs -> box r) -> let u := fold_left union_bbox rs rect0 in box u /\ (forall r, In r rs -> Rect.covers u r).
Proof.
  intros N B u. assert (E : u = hull (map as_line rs)).
  { unfold u, hull. generalize rect0. clear. induction rs as [|r t IH]; intros z; [reflexivity|]. cbn [map fold_left]. apply IH. }
  destruct (hull_sides (map as_line rs)) as (Bh & (_ & L) & (_ & R) & (_ & T) & (_ & D)); [destruct rs; [congruence|discriminate]|intros l Hl; apply in_map_iff in Hl; destruct Hl as (r & <- & Hr); apply B, Hr|].
  rewrite E. split; [exact Bh|]. intros r Hr. apply (in_map as_line) in Hr. specialize (L _ Hr). specialize (R _ Hr). specialize (T _ Hr). specialize (D _ Hr). repeat split; assumption.
Qed.
Lemma table_hull h b0 b1 : box (bc_bbox b0) -> box (bc_bbox b1) -> row_truth (mkBrow h [Some b0; Some b1]) = true /\ box (rows_box [mkBrow h [Some b0; Some b1]]) /\
  Rect.covers (rows_box [mkBrow h [Some b0; Some b1]]) (bc_bbox b0) /\ Rect.covers (rows_box [mkBrow h [Some b0; Some b1]]) (bc_bbox b1).
Proof.
  intros B0 B1. assert (E : row_bbox [Some b0; Some b1] = fold_left union_bbox [bc_bbox b0; bc_bbox b1] rect0) by reflexivity.
  destruct (boxes_hull [bc_bbox b0; bc_bbox b1] ltac:(discriminate)) as (Bu & Cu); [intros r [<-|[<-|[]]]; assumption|]. rewrite <- E in Bu, Cu.
  split; [apply GeomProof.proper_truthy, Bu|]. assert (E2 : rows_box [mkBrow h [Some b0; Some b1]] = fold_left union_bbox [row_bbox [Some b0; Some b1]] rect0) by reflexivity.
  destruct (boxes_hull [row_bbox [Some b0; Some b1]] ltac:(discriminate)) as (Bv & Cv); [intros r [<-|[]]; exact Bu|]. rewrite <- E2 in Bv, Cv. specialize (Cv _ (or_introl eq_refl)).
  split; [exact Bv|]. split; apply (GeomProof.covers_trans _ _ _ Cv); apply Cu; cbn [In]; auto.
Qed.
Lemma border_weightless h a b l : (forall s, In s l -> sh_width s = 0) -> sh_width (border_stroke h a b l) = 0.
Proof.
  intros H. unfold border_stroke. destruct l as [|x l]; [reflexivity|]. destruct (border_scan h a b (x :: l)) as [L bs] eqn:E.
  destruct (qlt _ _); [reflexivity|]. destruct bs as [|s t]; [reflexivity|]. destruct (forallb _ t); [|reflexivity].
  assert (G : forall l L bs, border_scan h a b l = (L, bs) -> forall s, In s bs -> In s l).
  { clear. induction l as [|y l IH]; intros L bs E s Hs; cbn [border_scan] in E; [injection E as <- <-; destruct Hs|].
    destruct (qle (s_to h y) a); [right; exact (IH L bs E s Hs)|]. destruct (qle b (s_from h y)); [injection E as <- <-; destruct Hs|]. cbv zeta in E.
    destruct (qlt (qmin b (s_to h y) - qmax a (s_from h y)) MAJOR_DIST); [right; exact (IH L bs E s Hs)|]. destruct (border_scan h a b l) as [L' bs'] eqn:E'. apply (f_equal snd) in E. cbn [snd] in E. subst bs.
    destruct Hs as [<-|Hs]; [left; reflexivity|right; exact (IH L' bs' eq_refl s Hs)]. }
  apply H. apply (G _ _ _ E). left. reflexivity.
Qed.

Definition half (b : bcell) : Prop := bc_merged b = (1%nat, 1%nat) /\ bc_widths b = (0, 0, 0, 0) /\ bc_bg b = None /\ box (bc_bbox b).
Lemma dget_values k d v : dget k d = Some v -> exists k', In (k', v) d.
Proof.
  induction d as [|[k' v'] d IH]; cbn [dget]; [intros E; discriminate E|]. destruct (qeq k' k); [intros E; injection E as ->; exists k'; left; reflexivity|]. intros E. destruct (IH E) as (x & Hx). exists x. right. exact Hx.
Qed.
Lemma columns_table area elems : (forall e, In e elems -> proper e /\ rect_decimal e /\ Rect.covers area e /\ TableSpec.in_column area e) -> 42 # 5 < rx1 area - rx0 area ->
  (exists e, In e elems /\ TableSpec.in_left area e) -> (exists e, In e elems /\ TableSpec.in_right area e) ->
  exists st b0 b1 h, page_layout area elems = Some (Parsed st) /\ to_table st = [mkBrow h [Some b0; Some b1]] /\ half b0 /\ half b1 /\ 2 < h /\
    rx1 (bc_bbox b0) == round1 (TableSpec.center area) /\ rx0 (bc_bbox b1) == round1 (TableSpec.center area) /\
    (forall e, In e elems -> TableSpec.in_left area e -> Rect.covers (bc_bbox b0) e) /\ (forall e, In e elems -> TableSpec.in_right area e -> Rect.covers (bc_bbox b1) e) /\
    let u := boxes_bbox elems in let low := round1 (ry0 u - MAJOR_DIST) in let top := round1 (ry1 u + MAJOR_DIST) in
    ry0 (bc_bbox b0) == low /\ ry1 (bc_bbox b0) == top /\ ry0 (bc_bbox b1) == low /\ ry1 (bc_bbox b1) == top.
Proof.
  intros H W (a & Ia & La) (b & Ib & Rb).
  assert (Cc : TableSpec.center area == (1 # 2) * (rx0 area + rx1 area)) by (unfold TableSpec.center; field).
  assert (El : column_elements area elems = elems).
  { unfold column_elements. apply TextProof.filter_all. intros e He. destruct (H e He) as (_ & _ & _ & C). change (page_center area) with (TableSpec.center area). apply orb_true_iff. rewrite !qlt_iff. exact C. }
  assert (Sp : span_elements area elems = []).
  { unfold span_elements. apply TextProof.filter_none. intros e He. destruct (H e He) as (_ & _ & _ & C). change (page_center area) with (TableSpec.center area). unfold TableSpec.in_column, TableSpec.in_left, TableSpec.in_right in C. apply andb_false_iff. destruct C; [left|right]; (match goal with |- ?x = false => destruct x eqn:X; [exfalso; apply qle_iff in X; lra|reflexivity] end). }
  assert (N : elems <> []) by (intros E0; rewrite E0 in Ia; destruct Ia).
  destruct (TableProof.boxes_cover elems N (fun e He => conj (proj1 (H e He)) (proj1 (proj2 (H e He))))) as (Pu & Du & Cv & Mn). cbv zeta in *. set (u := boxes_bbox elems) in *.
  assert (Cp : Rect.covers area u) by (apply Mn; intros e He; apply (H e He)).
  unfold page_layout. rewrite El, Sp. fold u. cbn [forallb]. unfold layout_strokes. cbv zeta. set (m0 := (rx0 area + rx0 u) / 2). set (m1 := (rx1 area + rx1 u) / 2). change (page_center area) with (TableSpec.center area).
  assert (E0 : m0 == (1 # 2) * (rx0 area + rx0 u)) by (unfold m0; field). assert (E1 : m1 == (1 # 2) * (rx1 area + rx1 u)) by (unfold m1; field).
  destruct (Cv a Ia) as (A1 & _). destruct (Cv b Ib) as (_ & _ & B1 & _). destruct Pu as (Pu1 & Pu2). destruct Cp as (Q1 & Q2 & Q3 & Q4). destruct (H a Ia) as ((Pa1 & _) & _). destruct (H b Ib) as ((Pb1 & _) & _). unfold TableSpec.in_left in La. unfold TableSpec.in_right in Rb.
  set (X := TableSpec.center area) in *. set (n0 := ry0 u - MAJOR_DIST). set (n1 := ry1 u + MAJOR_DIST).
  assert (H1 : 21 # 10 < X - m0) by lra. assert (H2 : 21 # 10 < m1 - X) by lra. assert (H3 : 10 < n1 - n0) by (unfold n0, n1, MAJOR_DIST; lra). assert (H3' : 21 # 10 < n1 - n0) by lra.
  destruct (TableProof.five_parsed m0 X m1 n0 n1 H1 H2 H3') as (st & ce0 & ce1 & P & Sx & Sy & Sc & R0 & K0 & R1 & K1).
  pose proof (TableProof.five_group m0 X m1 n0 n1 H1 H2 H3') as G. destruct (TableProof.parse_inv _ _ _ _ _ P) as (vb & hb & G' & _). rewrite G in G'. pose proof (f_equal (fun o => match o with Some z => fst z | None => [] end) G') as Eh. pose proof (f_equal (fun o => match o with Some z => snd z | None => [] end) G') as Ev. cbn [fst snd] in Eh, Ev.
  assert (Wl : forall k v s, In (k, v) (st_h st) \/ In (k, v) (st_v st) -> In s v -> sh_width s = 0).
  { intros k v s Hk Hs. rewrite <- Eh, <- Ev in Hk. cbn [In] in Hk. destruct Hk as [[Hk|[Hk|[]]]|[Hk|[Hk|[Hk|[]]]]]; apply (f_equal snd) in Hk; cbn [snd] in Hk; subst v; destruct Hs as [<-|[]]; rewrite ?TableProof.side_stroke_h, ?TableProof.side_stroke_v; reflexivity. }
  clear G G' Eh Ev.
  assert (C0 : TableSpec.cell_at st 0 0 ce0) by (exists [ce0; ce1]; rewrite Sc; split; reflexivity). assert (C1 : TableSpec.cell_at st 0 1 ce1) by (exists [ce0; ce1]; rewrite Sc; split; reflexivity).
  destruct (TableProps.C28_grid _ _ _ _ _ P) as (_ & _ & _ & _ & _ & _ & Gd).
  assert (Mk : forall j ce, TableSpec.cell_at st 0 j ce -> ce_rows ce = 1%nat -> ce_cols ce = 1%nat -> exists bc, make_cell ce = Some bc /\ bc_merged bc = (1%nat, 1%nat) /\ bc_widths bc = (0, 0, 0, 0) /\ bc_bg bc = None /\ bc_bbox bc = rround (ce_bbox ce)).
  { intros j ce C Rr Kk. assert (M : is_merged ce = false) by (unfold is_merged; rewrite Rr, Kk; reflexivity). destruct (TableProof.cell_finish _ _ _ _ _ _ _ _ P C M) as ([[[tp bt] lf] rg] & Pb & Eb & Es).
    unfold make_cell. rewrite M, Eb. eexists. split; [reflexivity|]. cbn [bc_merged bc_widths bc_bg bc_bbox]. rewrite Rr, Kk, Es. split; [reflexivity|]. split; [|split; reflexivity].
    unfold parse_borders in Pb. destruct (dget (ry0 (ce_bbox ce)) (st_h st)) as [vt|] eqn:D1; [|discriminate Pb]. destruct (dget (ry1 (ce_bbox ce)) (st_h st)) as [vm|] eqn:D2; [|discriminate Pb].
    destruct (dget (rx0 (ce_bbox ce)) (st_v st)) as [vl|] eqn:D3; [|discriminate Pb]. destruct (dget (rx1 (ce_bbox ce)) (st_v st)) as [vr|] eqn:D4; [|discriminate Pb].
    pose proof (f_equal (fun o => match o with Some (x, _, _, _) => x | None => empty_stroke end) Pb) as T1. pose proof (f_equal (fun o => match o with Some (_, x, _, _) => x | None => empty_stroke end) Pb) as T2.
    pose proof (f_equal (fun o => match o with Some (_, _, x, _) => x | None => empty_stroke end) Pb) as T3. pose proof (f_equal (fun o => match o with Some (_, _, _, x) => x | None => empty_stroke end) Pb) as T4. cbv beta iota in T1, T2, T3, T4.
    destruct (dget_values _ _ _ D1) as (k1 & I1), (dget_values _ _ _ D2) as (k2 & I2), (dget_values _ _ _ D3) as (k3 & I3), (dget_values _ _ _ D4) as (k4 & I4).
    rewrite <- T1, <- T2, <- T3, <- T4. rewrite !border_weightless; [reflexivity|intros s Hs; apply (Wl k3 vl s (or_intror I3) Hs)|intros s Hs; apply (Wl k2 vm s (or_introl I2) Hs)|intros s Hs; apply (Wl k4 vr s (or_intror I4) Hs)|intros s Hs; apply (Wl k1 vt s (or_introl I1) Hs)]. }
  destruct (Mk 0%nat ce0 C0 R0 K0) as (b0 & M0 & Mg0 & Wd0 & Bg0 & Bb0). destruct (Mk 1%nat ce1 C1 R1 K1) as (b1 & M1 & Mg1 & Wd1 & Bg1 & Bb1).
  destruct (Gd 0%nat 0%nat ce0 C0) as (_ & _ & X0 & X1 & Y0 & Y1). destruct (Gd 0%nat 1%nat ce1 C1) as (_ & _ & X2 & X3 & Y2 & Y3).
  rewrite K0, R0, Sx, Sy in *. rewrite K1, R1 in *. cbn [nth_error Nat.add] in X0, X1, Y0, Y1, X2, X3, Y2, Y3.
  apply (f_equal (fun o => match o with Some z => z | None => 0 end)) in X0, X1, Y0, Y1, X2, X3, Y2, Y3. cbv beta iota in X0, X1, Y0, Y1, X2, X3, Y2, Y3.
  assert (RR : forall x y, round1 x = y -> round1 y == round1 x) by (intros x y <-; apply round_p_fixed, round_p_decimal).
  apply RR in X0, X1, Y0, Y1, X2, X3, Y2, Y3.
  pose proof (round1_bound m0) as Bm0. pose proof (round1_bound m1) as Bm1. pose proof (round1_bound X) as BX. pose proof (round1_bound n0) as Bn0. pose proof (round1_bound n1) as Bn1.
  assert (Dc : forall r, rect_decimal (rround r)) by (intros r; apply rround_decimal).
  assert (Bx0 : box (bc_bbox b0)) by (rewrite Bb0; split; [split; cbn [rround rx0 rx1 ry0 ry1]; lra|apply Dc]). assert (Bx1 : box (bc_bbox b1)) by (rewrite Bb1; split; [split; cbn [rround rx0 rx1 ry0 ry1]; lra|apply Dc]).
  exists st, b0, b1, (round1 n1 - round1 n0). unfold TableProof.five in P. rewrite P. split; [reflexivity|].
  split. { unfold to_table, make_rows. rewrite Sc, Sy. cbn [intervals combine map fst snd filter]. rewrite M0, M1. rewrite (proj1 (table_hull _ b0 b1 Bx0 Bx1)). reflexivity. }
  split; [split; [exact Mg0|split; [exact Wd0|split; [exact Bg0|exact Bx0]]]|]. split; [split; [exact Mg1|split; [exact Wd1|split; [exact Bg1|exact Bx1]]]|]. split; [lra|].
  rewrite Bb0, Bb1. cbn [rround rx0 rx1 ry0 ry1]. split; [exact X1|]. split; [exact X2|].
  assert (Fx : forall x y, decimal 10 x -> x <= y -> x <= round1 y) by (intros x y D L; eapply Qle_trans; [|apply round_p_mono; exact L]; rewrite (round_p_fixed 10 x D); lra).
  assert (Fy : forall x y, decimal 10 x -> y <= x -> round1 y <= x) by (intros x y D L; eapply Qle_trans; [apply round_p_mono; exact L|]; rewrite (round_p_fixed 10 x D); lra).
  split; [|split; [|cbv zeta; split; [exact Y0|split; [exact Y1|split; [exact Y2|exact Y3]]]]]; intros e He Le; destruct (Cv e He) as (V1 & V2 & V3 & V4); destruct (H e He) as (_ & (D1 & D2 & D3 & D4) & _); unfold TableSpec.in_left, TableSpec.in_right in Le; fold X in Le; unfold Rect.covers; cbn [rround rx0 rx1 ry0 ry1].
  - pose proof (Fy _ m0 D1 ltac:(lra)). pose proof (Fx _ X D3 ltac:(lra)). pose proof (Fy _ n0 D2 ltac:(unfold n0, MAJOR_DIST; lra)). pose proof (Fx _ n1 D4 ltac:(unfold n1, MAJOR_DIST; lra)). repeat split; lra.
  - pose proof (Fy _ X D1 ltac:(lra)). pose proof (Fx _ m1 D3 ltac:(lra)). pose proof (Fy _ n0 D2 ltac:(unfold n0, MAJOR_DIST; lra)). pose proof (Fx _ n1 D4 ltac:(unfold n1, MAJOR_DIST; lra)). repeat split; lra.
Qed.
