(** The shapes over one text, one after the other. *)
From Verif Require Import GeomProof ShapeModel TextModel TextSpec TextProof FmtSpec LayoutFormat FmtProof.
From Coq Require Import List Lia Lqa.
Import ListNotations.
Notation length := List.length.
Open Scope Q_scope.

Lemma formats_app kind c a b fa fb : formats_on kind c a fa -> formats_on kind c b fb -> formats_on kind c (a ++ b) (fa ++ fb).
Proof. induction 1; intros H'; [exact H'|constructor; auto|constructor; auto]. Qed.

Section Text.
Variable kind : shape -> rtype.
Variable t : tspan.
Hypothesis S : set_text t.
Definition on (s : shape) : Prop := over (sh_bbox s) (ts_bbox t).
(** A part of the text, after the shapes [done], before [rest]. *)
Definition good_part (done rest : list shape) (p : tspan) : Prop :=
  in_text t p /\ laid_out true (ts_chars p) /\ ts_attrs p = ts_attrs t /\ incl (ts_chars p) (ts_chars t) /\
  (forall c, In c (ts_chars p) -> exists fs, formats_on kind c done fs /\ ts_style p = ts_style t ++ fs) /\
  (forall s c, In s rest -> on s -> In c (ts_chars p) -> half_x (sh_bbox s) c -> rx0 (ts_bbox p) < rx1 (ts_bbox p) /\ rx0 (ts_bbox p) < rx1 (sh_bbox s) /\ rx0 (sh_bbox s) < rx1 (ts_bbox p)) /\
  (forall s, In s rest -> on s -> (forall d, In d done -> on d -> ~ same_extent (sh_bbox d) (sh_bbox s)) -> touch (sh_bbox s) (ts_bbox p) -> exists c, In c (ts_chars p) /\ half_x (sh_bbox s) c).
Lemma part_step done s0 rest p s : good_part done (s0 :: rest) p -> on s0 -> shows s0 (ts_bbox t) (kind s0) -> still s0 s -> proper (sh_bbox s0) -> rect_decimal (sh_bbox s0) ->
  (forall b, In b rest -> on b -> gap_between (sh_bbox s0) (sh_bbox b) \/ same_extent (sh_bbox s0) (sh_bbox b)) ->
  (forall b, In b rest -> on b -> gap_between (sh_bbox s0) (sh_bbox b) -> (exists d, In d done /\ on d /\ same_extent (sh_bbox d) (sh_bbox s0)) -> rx1 (sh_bbox s0) < rx0 (sh_bbox b)) ->
  concat (map ts_chars (fst (split_span true p s))) = ts_chars p /\ Forall (good_part (done ++ [s0]) rest) (fst (split_span true p s)) /\ still s0 (snd (split_span true p s)).
Proof.
  intros (It & L & At & Inc & St & A & NB) On Sh Sl P0 D0 Pr Or. pose proof S as (Pt & _ & _ & _).
  pose proof (still_box _ _ Sl) as Eb. 
  assert (Hx : forall c, In c (ts_chars p) -> half_covered true (sh_bbox s0) c <-> half_x (sh_bbox s0) c) by (intros c Hc; apply (half_over t); [exact S|apply Inc, Hc|exact On]).
  assert (Pc : forall c, In c (ts_chars p) -> proper (ch_bbox c)) by (intros c Hc; eapply laid_proper; [exact L|exact Hc]).
  assert (Keep : forall q, ts_style q = ts_style p -> incl (ts_chars q) (ts_chars p) -> (forall c, In c (ts_chars q) -> ~ half_covered true (sh_bbox s0) c) ->
     forall c, In c (ts_chars q) -> exists fs, formats_on kind c (done ++ [s0]) fs /\ ts_style q = ts_style t ++ fs).
  { intros q Eq Iq Nq c Hc. destruct (St c (Iq c Hc)) as (fs & F & E). exists (fs ++ []). split; [apply formats_app; [exact F|apply fo_no; [apply Nq, Hc|constructor]]|rewrite app_nil_r, Eq; exact E]. }
  pose proof It as (Y0 & Y1 & X0 & X1 & X2 & Dp).
  destruct (split_cases t p s) as [(T & E)|[(T & N & u & Uc & Ua & Us & Ub & Ud & E)|(T & l & m & r & C & Nm & Hm & Hlr & ul & um & ur & UL & (Mc & Ma & Ms & Mb & Md) & UR & E)]];
    try (rewrite Eb; assumption); try assumption; rewrite ?Eb in *.
  - (* not touched *) rewrite E. cbn [fst snd map concat]. rewrite app_nil_r. split; [reflexivity|]. split; [|exact Sl]. constructor; [|constructor].
    split; [exact It|]. split; [exact L|]. split; [exact At|]. split; [exact Inc|]. split; [|split].
    + apply Keep; [reflexivity|apply incl_refl|]. intros c Hc Hh. apply T. apply (Hx c Hc) in Hh. destruct (A s0 c (or_introl eq_refl) On Hc Hh) as (A1 & A2 & A3). unfold touch. split; [exact A1|]. split; lra.
    + intros b c Hb. apply A. right. exact Hb.
    + intros b Hb Ob Nd. apply NB; [right; exact Hb|exact Ob|]. intros d Hd. apply Nd. apply in_or_app. left. exact Hd.
  - (* touched only *)
    assert (Rep : exists d, In d done /\ on d /\ same_extent (sh_bbox d) (sh_bbox s0)).
    { assert (Dec : (exists d, In d done /\ on d /\ same_extent (sh_bbox d) (sh_bbox s0)) \/ forall d, In d done -> on d -> ~ same_extent (sh_bbox d) (sh_bbox s0)).
      { clear. induction done as [|d done IH]; [right; intros d []|]. destruct IH as [(e & He & X)|H]; [left; exists e; split; [right; exact He|exact X]|].
        destruct (Qeq_dec (rx0 (sh_bbox d)) (rx0 (sh_bbox s0))) as [E0|N0]; [|right; intros e [<-|He] Oe; [intros [X _]; exact (N0 X)|apply H; assumption]].
        destruct (Qeq_dec (rx1 (sh_bbox d)) (rx1 (sh_bbox s0))) as [E1|N1]; [|right; intros e [<-|He] Oe; [intros [_ X]; exact (N1 X)|apply H; assumption]].
        assert (Od : on d \/ ~ on d) by (unfold on, over; destruct (Qlt_le_dec (rx0 (sh_bbox d)) (rx1 (ts_bbox t))), (Qlt_le_dec (rx0 (ts_bbox t)) (rx1 (sh_bbox d))), (Qlt_le_dec (ry0 (sh_bbox d)) (ry1 (ts_bbox t))), (Qlt_le_dec (ry0 (ts_bbox t)) (ry1 (sh_bbox d))); first [left; repeat split; assumption|right; intros (Z1 & Z2 & Z3 & Z4); lra]).
        destruct Od as [Od|Od]; [left; exists d; split; [left; reflexivity|split; [exact Od|split; assumption]]|right; intros e [<-|He] Oe; [contradiction|apply H; assumption]]. }
      destruct Dec as [X|X]; [exact X|]. exfalso. destruct (NB s0 (or_introl eq_refl) On X T) as (c & Hc & Hh). apply (N c Hc), (Hx c Hc), Hh. }
    assert (G : good_part (done ++ [s0]) rest u).
    { destruct Ub as (B0 & B1 & B2 & B3). cbn [rx0 ry0 rx1 ry1] in *. destruct T as (T0 & T1 & T2).
      assert (Mn : qmin (rx1 (sh_bbox s0)) (rx1 (ts_bbox p)) <= rx1 (ts_bbox p) /\ rx0 (ts_bbox p) <= qmin (rx1 (sh_bbox s0)) (rx1 (ts_bbox p))) by (unfold qmin; qcases; split; lra). destruct Mn as [Mn1 Mn2].
      split; [split; [lra|]; split; [lra|]; split; [lra|]; split; [lra|]; split; [lra|exact Ud]|]. rewrite Uc. split; [exact L|]. split; [congruence|]. split; [exact Inc|]. split; [|split].
      - rewrite <- Uc. apply Keep; [exact Us|rewrite Uc; apply incl_refl|rewrite Uc; exact N].
      - intros b c Hb Ob Hc Hh. destruct (A b c (or_intror Hb) Ob Hc Hh) as (A1 & A2 & A3).
        assert (Bs : gap_between (sh_bbox s0) (sh_bbox b)) by (destruct (Pr b Hb Ob) as [X|X]; [exact X|]; exfalso; apply (N c Hc), (Hx c Hc); eapply half_same; [|exact Hh]; destruct X; split; symmetry; assumption).
        pose proof (Or b Hb Ob Bs Rep) as R. destruct (half_meets (sh_bbox b) c (Pc c Hc) Hh) as [M1 M2].
        assert (Mn : qmin (rx1 (sh_bbox s0)) (rx1 (ts_bbox p)) <= rx1 (sh_bbox s0)) by (unfold qmin; qcases; lra).
        assert (Bw : rx0 (sh_bbox b) < rx1 (sh_bbox b) \/ ~ rx0 (sh_bbox b) < rx1 (sh_bbox b)) by (destruct (Qlt_le_dec (rx0 (sh_bbox b)) (rx1 (sh_bbox b))); [left; assumption|right; lra]).
        destruct Bw as [Bw|Bw]; [split; [lra|split; lra]|]. exfalso. unfold half_x in Hh. destruct (Pc c Hc) as [Pw _]. setoid_replace ((rx1 (ch_bbox c) - rx0 (ch_bbox c)) / 2) with ((1 # 2) * (rx1 (ch_bbox c) - rx0 (ch_bbox c))) in Hh by field. revert Hh. unfold qmin, qmax. qcases; intros; lra.
      - intros b Hb Ob Nd Tb. destruct Tb as (Tb0 & Tb1 & Tb2). destruct (NB b (or_intror Hb) Ob) as (c & Hc & Hh); [intros d Hd; apply Nd, in_or_app; left; exact Hd|unfold touch; split; [lra|split; lra]|]. exists c. split; assumption. }
    destruct E as [E|[E0 E]]; rewrite E; cbn [fst snd map concat].
    + rewrite app_nil_r. split; [exact Uc|]. split; [constructor; [exact G|constructor]|exact Sl].
    + split; [symmetry; exact E0|]. split; [constructor|exact Sl].
  - (* split *)
    rewrite C in L, Inc, Hx, Pc, A, NB. destruct (laid_app _ _ L) as (Ll & Lmr & Olm). destruct (laid_app _ _ Lmr) as (Lm & Lr & Omr).
    assert (Hd : exists d, In d m) by (destruct m as [|d m']; [congruence|exists d; left; reflexivity]). destruct Hd as (d & Hd).
    assert (Il : incl l (l ++ m ++ r)) by (intros x H; apply in_or_app; left; exact H). assert (Im : incl m (l ++ m ++ r)) by (intros x H; apply in_or_app; right; apply in_or_app; left; exact H). assert (Ir : incl r (l ++ m ++ r)) by (intros x H; apply in_or_app; right; apply in_or_app; right; exact H).
    pose proof (proj1 (Hx d (Im d Hd)) (Hm d Hd)) as Hhd. destruct (A s0 d (or_introl eq_refl) On (Im d Hd) Hhd) as (A1 & A2 & A3). destruct (half_meets _ _ (Pc d (Im d Hd)) Hhd) as (D1 & D2). pose proof (proj1 P0) as W0.
    set (mx := qmax (rx0 (sh_bbox s0)) (rx0 (ts_bbox p))) in *. set (mn := qmin (rx1 (sh_bbox s0)) (rx1 (ts_bbox p))) in *.
    assert (Mx : (mx == rx0 (sh_bbox s0) /\ rx0 (ts_bbox p) <= rx0 (sh_bbox s0)) \/ (mx == rx0 (ts_bbox p) /\ rx0 (sh_bbox s0) <= rx0 (ts_bbox p))) by (unfold mx, qmax; qcases; [right|left]; split; lra).
    assert (Mn : (mn == rx1 (sh_bbox s0) /\ rx1 (sh_bbox s0) <= rx1 (ts_bbox p)) \/ (mn == rx1 (ts_bbox p) /\ rx1 (ts_bbox p) <= rx1 (sh_bbox s0))) by (unfold mn, qmin; qcases; [right|left]; split; lra).
    clearbody mx mn.
    assert (Pm : proper (ts_bbox um)).
    { destruct Mb as (B0 & B1 & B2 & B3). cbn [rx0 ry0 rx1 ry1] in *. destruct Pt as [Pt1 Pt2]. split; [|lra]. destruct Mx as [[Mx ?]|[Mx ?]], Mn as [[Mn ?]|[Mn ?]]; lra. }
    assert (Fm : fst (parse_format true um s) = add_style um (style_of (kind s0) s0)).
    { destruct Mb as (B0 & B1 & B2 & B3). cbn [rx0 ry0 rx1 ry1] in *. apply (mean_format um (ts_bbox t)); try assumption; try (rewrite Eb); try assumption; try lra; destruct Mx as [[Mx ?]|[Mx ?]], Mn as [[Mn ?]|[Mn ?]]; lra. }
    assert (Sl' : still s0 (snd (parse_format true um s))) by (apply still_format; [eapply shows_usable; exact Sh|exact Sl]).
    assert (GM : good_part (done ++ [s0]) rest (fst (parse_format true um s))).
    { rewrite Fm. unfold good_part. cbn [add_style ts_chars ts_bbox ts_style ts_attrs]. rewrite Mc, Ma, Ms. destruct Mb as (B0 & B1 & B2 & B3). cbn [rx0 ry0 rx1 ry1] in *.
      split; [unfold in_text, add_style; cbn [ts_bbox]; split; [lra|]; split; [lra|]; split; [destruct Mx as [[Mx ?]|[Mx ?]]; lra|]; split; [exact (Qlt_le_weak _ _ (proj1 Pm))|]; split; [destruct Mn as [[Mn ?]|[Mn ?]]; lra|exact Md]|].
      split; [exact Lm|]. split; [exact At|]. split; [intros x Hxm; apply Inc, Im, Hxm|]. split; [|split].
      - intros c Hc. destruct (St c) as (fs & F & Es); [rewrite C; apply Im, Hc|]. exists (fs ++ [format kind s0]). split; [apply formats_app; [exact F|apply fo_yes; [apply Hm, Hc|constructor]]|]. rewrite Es, <- app_assoc. reflexivity.
      - intros b c Hb Ob Hc Hh. destruct (Pr b Hb Ob) as [Bs|[E0 E1]].
        + exfalso. apply (half_apart (sh_bbox s0) (sh_bbox b) c (Pc c (Im c Hc)) Bs); [apply (Hx c (Im c Hc)), Hm, Hc|exact Hh].
        + pose proof (proj1 Pm) as Px. split; [exact Px|]. destruct Mx as [[Mx ?]|[Mx ?]], Mn as [[Mn ?]|[Mn ?]]; split; lra.
      - intros b Hb Ob Nd (T0 & T1 & T2). destruct (Pr b Hb Ob) as [Bs|Bs]; [|exfalso; apply (Nd s0); [apply in_or_app; right; left; reflexivity|exact On|exact Bs]].
        exfalso. destruct Bs as [Bs|Bs]; destruct Mx as [[Mx ?]|[Mx ?]], Mn as [[Mn ?]|[Mn ?]]; lra. }
    assert (GL : Forall (good_part (done ++ [s0]) rest) ul /\ concat (map ts_chars ul) = l).
    { destruct UL as [[-> ->]|(u & -> & Uc & Ua & Us & (B0 & B1 & B2 & B3) & Ud)]; [split; [constructor|reflexivity]|]. cbn [rx0 ry0 rx1 ry1] in *. cbn [map concat]. rewrite app_nil_r. split; [constructor; [|constructor]|exact Uc].
      split; [split; [lra|]; split; [lra|]; split; [lra|]; split; [destruct Mx as [[Mx ?]|[Mx ?]]; lra|]; split; [destruct Mx as [[Mx ?]|[Mx ?]]; lra|exact Ud]|].
      split; [rewrite Uc; exact Ll|]. split; [congruence|]. split; [rewrite Uc; intros x Hxl; apply Inc, Il, Hxl|]. split; [|split].
      - apply Keep; [exact Us|rewrite Uc, C; exact Il|rewrite Uc; intros c Hc; apply Hlr, in_or_app; left; exact Hc].
      - rewrite Uc. intros b c Hb Ob Hc Hh. destruct (A b c (or_intror Hb) Ob (Il c Hc) Hh) as (b1 & b2 & b3). destruct (half_meets _ _ (Pc c (Il c Hc)) Hh) as (m1 & m2).
        pose proof (Olm c d Hc (in_or_app _ _ _ (or_introl Hd))) as O. destruct (Pr b Hb Ob) as [[Bs|Bs]|Bs].
        + exfalso. lra.
        + assert (rx0 (sh_bbox b) < rx1 (sh_bbox b)). { unfold half_x in Hh. destruct (Pc c (Il c Hc)) as [Pw _]. setoid_replace ((rx1 (ch_bbox c) - rx0 (ch_bbox c)) / 2) with ((1 # 2) * (rx1 (ch_bbox c) - rx0 (ch_bbox c))) in Hh by field. revert Hh. unfold qmin, qmax. qcases; intros; lra. }
          destruct Mx as [[Mx ?]|[Mx ?]]; [split; [lra|split; lra]|exfalso; lra].
        + exfalso. apply (Hlr c); [apply in_or_app; left; exact Hc|]. apply (Hx c (Il c Hc)). eapply half_same; [|exact Hh]. destruct Bs; split; symmetry; assumption.
      - rewrite Uc. intros b Hb Ob Nd (T0 & T1 & T2). assert (Bs : gap_between (sh_bbox s0) (sh_bbox b)) by (destruct (Pr b Hb Ob) as [X|X]; [exact X|exfalso; apply (Nd s0); [apply in_or_app; right; left; reflexivity|exact On|exact X]]).
        destruct Mx as [[Mx ?]|[Mx ?]]; [|exfalso; lra].
        assert (Lb : rx1 (sh_bbox b) < rx0 (sh_bbox s0)) by (destruct Bs; lra).
        destruct (NB b (or_intror Hb) Ob) as (c & Hc & Hh); [intros e He; apply Nd, in_or_app; left; exact He|unfold touch; split; [lra|split; lra]|].
        exists c. split; [|exact Hh]. apply in_app_or in Hc. destruct Hc as [Hc|Hc]; [exact Hc|exfalso]. destruct (half_meets _ _ (Pc c (in_or_app _ _ _ (or_intror Hc))) Hh) as (m1 & m2).
        apply in_app_or in Hc. destruct Hc as [Hc|Hc]; [|pose proof (Omr d c Hd Hc); lra].
        apply (half_apart (sh_bbox s0) (sh_bbox b) c (Pc c (Im c Hc)) Bs); [apply (Hx c (Im c Hc)), Hm, Hc|exact Hh]. }
    assert (GR : Forall (good_part (done ++ [s0]) rest) ur /\ concat (map ts_chars ur) = r).
    { destruct UR as [[-> ->]|(u & -> & Uc & Ua & Us & (B0 & B1 & B2 & B3) & Ud)]; [split; [constructor|reflexivity]|]. cbn [rx0 ry0 rx1 ry1] in *. cbn [map concat]. rewrite app_nil_r. split; [constructor; [|constructor]|exact Uc].
      split; [split; [lra|]; split; [lra|]; split; [destruct Mn as [[Mn ?]|[Mn ?]]; lra|]; split; [destruct Mn as [[Mn ?]|[Mn ?]]; lra|]; split; [lra|exact Ud]|].
      split; [rewrite Uc; exact Lr|]. split; [congruence|]. split; [rewrite Uc; intros x Hxl; apply Inc, Ir, Hxl|]. split; [|split].
      - apply Keep; [exact Us|rewrite Uc, C; exact Ir|rewrite Uc; intros c Hc; apply Hlr, in_or_app; right; exact Hc].
      - rewrite Uc. intros b c Hb Ob Hc Hh. destruct (A b c (or_intror Hb) Ob (Ir c Hc) Hh) as (b1 & b2 & b3). destruct (half_meets _ _ (Pc c (Ir c Hc)) Hh) as (m1 & m2).
        pose proof (Omr d c Hd Hc) as O. destruct (Pr b Hb Ob) as [[Bs|Bs]|Bs].
        + assert (rx0 (sh_bbox b) < rx1 (sh_bbox b)). { unfold half_x in Hh. destruct (Pc c (Ir c Hc)) as [Pw _]. setoid_replace ((rx1 (ch_bbox c) - rx0 (ch_bbox c)) / 2) with ((1 # 2) * (rx1 (ch_bbox c) - rx0 (ch_bbox c))) in Hh by field. revert Hh. unfold qmin, qmax. qcases; intros; lra. }
          destruct Mn as [[Mn ?]|[Mn ?]]; [split; [lra|split; lra]|exfalso; lra].
        + exfalso. lra.
        + exfalso. apply (Hlr c); [apply in_or_app; right; exact Hc|]. apply (Hx c (Ir c Hc)). eapply half_same; [|exact Hh]. destruct Bs; split; symmetry; assumption.
      - rewrite Uc. intros b Hb Ob Nd (T0 & T1 & T2). assert (Bs : gap_between (sh_bbox s0) (sh_bbox b)) by (destruct (Pr b Hb Ob) as [X|X]; [exact X|exfalso; apply (Nd s0); [apply in_or_app; right; left; reflexivity|exact On|exact X]]).
        destruct Mn as [[Mn ?]|[Mn ?]]; [|exfalso; lra].
        assert (Lb : rx1 (sh_bbox s0) < rx0 (sh_bbox b)) by (destruct Bs; lra).
        destruct (NB b (or_intror Hb) Ob) as (c & Hc & Hh); [intros e He; apply Nd, in_or_app; left; exact He|unfold touch; split; [lra|split; lra]|].
        exists c. split; [|exact Hh]. destruct (half_meets _ _ (Pc c Hc) Hh) as (m1 & m2). apply in_app_or in Hc. destruct Hc as [Hc|Hc]; [exfalso; pose proof (Olm c d Hc (in_or_app _ _ _ (or_introl Hd))); lra|].
        apply in_app_or in Hc. destruct Hc as [Hc|Hc]; [exfalso|exact Hc].
        apply (half_apart (sh_bbox s0) (sh_bbox b) c (Pc c (Im c Hc)) Bs); [apply (Hx c (Im c Hc)), Hm, Hc|exact Hh]. }
    destruct GL as [GL CL], GR as [GR CR]. rewrite E. cbn [fst snd]. split; [|split; [|exact Sl']].
    + rewrite !map_app, !concat_app, CL, CR, C. cbn [map concat]. rewrite Fm. cbn [add_style ts_chars]. rewrite Mc, app_nil_r. reflexivity.
    + apply Forall_app. split; [exact GL|]. constructor; assumption.
Qed.
End Text.
