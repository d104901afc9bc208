(** One shape over one part of a text. *)
From Verif Require Import GeomProof ShapeModel TextModel TextSpec TextProof FmtSpec LayoutFormat.
From Verif Require GeomProps ParaProof.
From Coq Require Import List Lia Lqa.
Import ListNotations.
Notation length := List.length.
Open Scope Q_scope.

Definition touch (s b : rect) : Prop := rx0 b < rx1 b /\ rx0 b <= rx1 s /\ rx0 s <= rx1 b.
Definition in_text (t : tspan) (p : tspan) : Prop :=
  ry0 (ts_bbox p) == ry0 (ts_bbox t) /\ ry1 (ts_bbox p) == ry1 (ts_bbox t) /\ rx0 (ts_bbox t) <= rx0 (ts_bbox p) /\ rx0 (ts_bbox p) <= rx1 (ts_bbox p) /\ rx1 (ts_bbox p) <= rx1 (ts_bbox t) /\
  rect_decimal (ts_bbox p).
Lemma touch_inter s b y0 y1 : proper s -> ry0 b == y0 -> ry1 b == y1 -> y0 < y1 -> rx0 b <= rx1 b -> ry0 s < y1 -> y0 < ry1 s ->
  (touch s b /\ rect_bool (rinter s b) = true /\ rinter s b = mkRect (qmax (rx0 s) (rx0 b)) (qmax (ry0 s) (ry0 b)) (qmin (rx1 s) (rx1 b)) (qmin (ry1 s) (ry1 b))) \/
  (~ touch s b /\ rect_bool (rinter s b) = false).
Proof.
  intros P E0 E1 Hy V S0 S1. unfold rinter. rewrite (proper_nonempty s P). unfold rect_empty.
  destruct (qeq_spec (rx0 b) (rx1 b)) as [L|L]; cbn [orb]; [right; split; [unfold touch; intros (X & _); lra|reflexivity]|].
  destruct (qeq_spec (ry0 b) (ry1 b)) as [L2|L2]; [lra|]. cbv zeta. assert (Lx : rx0 b < rx1 b) by (destruct (Qlt_le_dec (rx0 b) (rx1 b)); [assumption|exfalso; apply L; lra]).
  destruct P as [P1 P2].
  assert (Y : qlt (qmin (ry1 s) (ry1 b)) (qmax (ry0 s) (ry0 b)) = false) by (destruct (qlt_spec (qmin (ry1 s) (ry1 b)) (qmax (ry0 s) (ry0 b))) as [K|K]; [exfalso; unfold qmin, qmax in K; revert K; qcases; intros; lra|reflexivity]).
  assert (Y' : qmax (ry0 s) (ry0 b) < qmin (ry1 s) (ry1 b)) by (unfold qmin, qmax; qcases; lra).
  rewrite Y, orb_false_r. destruct (qlt_spec (qmin (rx1 s) (rx1 b)) (qmax (rx0 s) (rx0 b))) as [K|K].
  - right. split; [|reflexivity]. unfold touch. intros (_ & A & B). revert K. unfold qmin, qmax. qcases; intros; lra.
  - left. split; [unfold touch; split; [lra|]; revert K; unfold qmin, qmax; qcases; intros; split; lra|]. split; [|reflexivity].
    unfold rect_bool. cbn [rx0 ry0 rx1 ry1]. apply negb_true_iff. apply Bool.not_true_iff_false. rewrite !andb_true_iff, !qeq_iff. intros (((_ & A) & _) & B). lra.
Qed.
(** The three outcomes. *)
Lemma split_cases (t p : tspan) s : proper (sh_bbox s) -> rect_decimal (sh_bbox s) -> over (sh_bbox s) (ts_bbox t) -> proper (ts_bbox t) -> in_text t p -> laid_out true (ts_chars p) ->
  (~ touch (sh_bbox s) (ts_bbox p) /\ split_span true p s = ([p], s)) \/
  (touch (sh_bbox s) (ts_bbox p) /\ (forall c, In c (ts_chars p) -> ~ half_covered true (sh_bbox s) c) /\
   exists u, ts_chars u = ts_chars p /\ ts_attrs u = ts_attrs p /\ ts_style u = ts_style p /\
     req (ts_bbox u) (mkRect (qmin (rx1 (sh_bbox s)) (rx1 (ts_bbox p))) (ry0 (ts_bbox p)) (rx1 (ts_bbox p)) (ry1 (ts_bbox p))) /\ rect_decimal (ts_bbox u) /\
     (split_span true p s = ([u], s) \/ (ts_chars p = [] /\ split_span true p s = ([], s)))) \/
  (touch (sh_bbox s) (ts_bbox p) /\ exists l m r, ts_chars p = l ++ m ++ r /\ m <> [] /\ (forall c, In c m -> half_covered true (sh_bbox s) c) /\ (forall c, In c (l ++ r) -> ~ half_covered true (sh_bbox s) c) /\
   exists ul um ur, (l = [] /\ ul = [] \/ exists u, ul = [u] /\ ts_chars u = l /\ ts_attrs u = ts_attrs p /\ ts_style u = ts_style p /\
        req (ts_bbox u) (mkRect (rx0 (ts_bbox p)) (ry0 (ts_bbox p)) (qmax (rx0 (sh_bbox s)) (rx0 (ts_bbox p))) (ry1 (ts_bbox p))) /\ rect_decimal (ts_bbox u)) /\
     (ts_chars um = m /\ ts_attrs um = ts_attrs p /\ ts_style um = ts_style p /\
        req (ts_bbox um) (mkRect (qmax (rx0 (sh_bbox s)) (rx0 (ts_bbox p))) (ry0 (ts_bbox p)) (qmin (rx1 (sh_bbox s)) (rx1 (ts_bbox p))) (ry1 (ts_bbox p))) /\ rect_decimal (ts_bbox um)) /\
     (r = [] /\ ur = [] \/ exists u, ur = [u] /\ ts_chars u = r /\ ts_attrs u = ts_attrs p /\ ts_style u = ts_style p /\
        req (ts_bbox u) (mkRect (qmin (rx1 (sh_bbox s)) (rx1 (ts_bbox p))) (ry0 (ts_bbox p)) (rx1 (ts_bbox p)) (ry1 (ts_bbox p))) /\ rect_decimal (ts_bbox u)) /\
     split_span true p s = (ul ++ [fst (parse_format true um s)] ++ ur, snd (parse_format true um s))).
Proof.
  intros Ps Ds (O1 & O2 & O3 & O4) Pt (Y0 & Y1 & X0 & X1 & X2 & Dp) L.
  destruct (touch_inter (sh_bbox s) (ts_bbox p) (ry0 (ts_bbox t)) (ry1 (ts_bbox t)) Ps Y0 Y1 (proj2 Pt) X1 O3 O4) as [(T & R & E)|(T & R)].
  2:{ left. split; [exact T|]. unfold split_span. rewrite R. reflexivity. }
  right. unfold split_span. rewrite R. cbv zeta. cbn [negb across]. rewrite E. cbn [rx0 rx1 ry0 ry1].
  set (ins := char_in true (sh_bbox s)). set (cs := ts_chars p) in *. set (B := sh_bbox s) in *. set (b := ts_bbox p) in *.
  assert (Dq : rect_decimal (mkRect (qmin (rx1 B) (rx1 b)) (ry0 b) (rx1 b) (ry1 b)) /\ rect_decimal (mkRect (rx0 b) (ry0 b) (qmax (rx0 B) (rx0 b)) (ry1 b)) /\
    rect_decimal (mkRect (qmax (rx0 B) (rx0 b)) (ry0 b) (qmin (rx1 B) (rx1 b)) (ry1 b))).
  { destruct Ds as (D1 & D2 & D3 & D4), Dp as (Q1 & Q2 & Q3 & Q4). unfold rect_decimal, qmin, qmax. cbn [rx0 rx1 ry0 ry1]. destruct (qlt _ _), (qlt _ _); repeat split; assumption. }
  destruct Dq as (DR & DL & DM).
  assert (Hp : forall c, In c cs -> proper (ch_bbox c)) by (intros c Hc; destruct L as ((y0 & y1 & Hr) & _); apply (Hr c Hc)).
  assert (Hin : forall c, In c cs -> ins c = true <-> half_covered true B c) by (intros c Hc; apply char_in_spec; [exact Ps|apply Hp; exact Hc]).
  assert (Hno : forall q c, incl q cs -> filter ins q = [] -> In c q -> ~ half_covered true B c).
  { intros q c Hq Hf Hc Hh. apply (filter_nil _ _ Hf) in Hc as Hc'. apply (Hin c (Hq c Hc)) in Hh. congruence. }
  assert (Ifst : forall k, incl (firstn k cs) cs) by (intros k x Hx; rewrite <- (firstn_skipn k cs); apply in_or_app; left; exact Hx).
  assert (Iskp : forall k, incl (skipn k cs) cs) by (intros k x Hx; rewrite <- (firstn_skipn k cs); apply in_or_app; right; exact Hx).
  destruct (first_index ins cs) as [q|] eqn:F.
  - right. split; [exact T|]. destruct (contiguous ins cs q F) as (C1 & C2 & C3).
    { intros i0 j m a d c Hij Ha Hb Hc Qa Qc. apply (Hin d (nth_error_In _ _ Hb)).
      apply (TextProof.between true B cs Ps L i0 j m a d c Hij Ha Hb Hc); [apply (Hin a (nth_error_In _ _ Ha)); exact Qa|apply (Hin c (nth_error_In _ _ Hc)); exact Qc]. }
    destruct (first_index_some _ _ _ F) as (F1 & F2 & _ & _).
    set (n := length (filter ins cs)) in *.
    exists (firstn q cs), (firstn n (skipn q cs)), (skipn (q + n) cs).
    split; [symmetry; apply three_parts|]. split; [intros X; apply (f_equal (@List.length _)) in X; rewrite firstn_length, skipn_length in X; cbn in X; lia|].
    split; [intros c Hc; rewrite C1 in Hc; apply filter_In in Hc; apply Hin; tauto|].
    split; [intros c Hc; apply in_app_or in Hc; destruct Hc as [Hc|Hc]; [exact (Hno _ c (Ifst q) C2 Hc)|exact (Hno _ c (Iskp _) C3 Hc)]|].
    set (um := part p (mkRect (qmax (rx0 B) (rx0 b)) (ry0 b) (qmin (rx1 B) (rx1 b)) (ry1 b)) (firstn n (skipn q cs))).
    exists (match q with S k => [part p (mkRect (rx0 b) (ry0 b) (qmax (rx0 B) (rx0 b)) (ry1 b)) (firstn (S k) cs)] | O => [] end), um,
      (if (q + n <? length cs)%nat then [part p (mkRect (qmin (rx1 B) (rx1 b)) (ry0 b) (rx1 b) (ry1 b)) (skipn (q + n) cs)] else []).
    split; [destruct q as [|k]; [left; split; reflexivity|right; eexists; split; [reflexivity|]; cbn [part ts_chars ts_attrs ts_style ts_bbox]; split; [reflexivity|]; split; [reflexivity|]; split; [reflexivity|]; split; [apply rround_fixed; exact DL|apply rround_decimal]]|].
    split; [cbn [um part ts_chars ts_attrs ts_style ts_bbox]; split; [reflexivity|]; split; [reflexivity|]; split; [reflexivity|]; split; [apply rround_fixed; exact DM|apply rround_decimal]|].
    split; [destruct (Nat.ltb_spec (q + n) (length cs)) as [Lt|Ge]; [right; eexists; split; [reflexivity|]; cbn [part ts_chars ts_attrs ts_style ts_bbox]; split; [reflexivity|]; split; [reflexivity|]; split; [reflexivity|]; split; [apply rround_fixed; exact DR|apply rround_decimal]|left; split; [apply skipn_all2; lia|reflexivity]]|].
    fold um. destruct (parse_format true um s). reflexivity.
  - left. split; [exact T|]. split; [intros c Hc; apply (Hno cs c); [apply incl_refl|apply first_index_none; exact F|exact Hc]|].
    exists (part p (mkRect (qmin (rx1 B) (rx1 b)) (ry0 b) (rx1 b) (ry1 b)) cs). cbn [part ts_chars ts_attrs ts_style ts_bbox].
    split; [reflexivity|]. split; [reflexivity|]. split; [reflexivity|]. split; [apply rround_fixed; exact DR|]. split; [apply rround_decimal|].
    cbn [fst snd app]. destruct (Nat.ltb_spec 0 (length cs)) as [Lt|Ge]; [left; reflexivity|]. right. split; [destruct cs; [reflexivity|cbn in Ge; lia]|reflexivity].
Qed.

(** The format of the middle part. *)
Lemma mean_type t b s k : proper (ts_bbox t) -> ry0 (ts_bbox t) == ry0 b -> ry1 (ts_bbox t) == ry1 b -> proper (sh_bbox s) ->
  rx0 (sh_bbox s) <= rx0 (ts_bbox t) -> rx1 (ts_bbox t) <= rx1 (sh_bbox s) ->
  forall s0, kin s0 s -> shows s0 b k -> k <> R_HYPERLINK -> style_type true t s = k.
Proof.
  intros Pt E0 E1 Ps X0 X1 s0 K Sh N.
  assert (Kb : sh_bbox s = sh_bbox s0) by (apply kin_box; exact K). assert (Kc : sh_color s = sh_color s0) by (destruct K as [->|[_ ->]]; reflexivity).
  assert (H : rheight b == ry1 (ts_bbox t) - ry0 (ts_bbox t)) by (unfold rheight; lra).
  assert (D : qabs (ry1 (ts_bbox t) - ry0 (sh_bbox s)) == Qabs (ry1 b - ry0 (sh_bbox s0))) by (rewrite ParaProof.qabs_Qabs', Kb, E1; reflexivity).
  pose proof (proj2 Pt) as Py. unfold style_type. cbn [hi lo]. set (d := qabs _) in *. set (d' := Qabs _) in *.
  set (hs := ry1 (ts_bbox t) - ry0 (ts_bbox t)) in *. assert (Hh : 0 < hs) by (unfold hs; lra).
  assert (H2 : rheight b / 2 == (1 # 2) * hs) by (rewrite H; field). assert (H4 : rheight b / 4 == (1 # 4) * hs) by (rewrite H; field).
  destruct k; try (destruct Sh; fail); try congruence; cbn [shows] in Sh.
  - destruct Sh as (_ & A & C & F).
    assert (Q1 : qle ((1 # 2) * hs) (ry1 (sh_bbox s) - ry0 (sh_bbox s)) = true) by (apply qle_iff; rewrite Kb; rewrite H2 in A; exact A). rewrite Q1, Kc.
    destruct (Z.eqb_spec (sh_color s0) WHITE) as [Z|_]; [destruct (C Z)|]. cbn [negb andb].
    assert (O : match get_main_bbox (ts_bbox t) (sh_bbox s) FACTOR_MAJOR with Some m => rect_bool m | None => false end = true); [|rewrite O; reflexivity].
    apply (overlap_test (3 # 4) (mkLine (ts_bbox t) LEFT_RIGHT [] None false) (mkLine (sh_bbox s) LEFT_RIGHT [] None false) ltac:(reflexivity) Pt Ps). unfold overlapping. cbn [ln_bbox].
    rewrite (rinter_proper _ _ Pt Ps).
    assert (Ky : (3 # 4) * hs <= qmin (ry1 (ts_bbox t)) (ry1 (sh_bbox s)) - qmax (ry0 (ts_bbox t)) (ry0 (sh_bbox s))).
    { rewrite Kb. revert F. rewrite H. unfold qmin, qmax. qcases; intros; lra. }
    assert (Ex0 : qmax (rx0 (ts_bbox t)) (rx0 (sh_bbox s)) == rx0 (ts_bbox t)) by (unfold qmax; qcases; lra).
    assert (Ex1 : qmin (rx1 (ts_bbox t)) (rx1 (sh_bbox s)) == rx1 (ts_bbox t)) by (unfold qmin; qcases; lra).
    pose proof (proj1 Pt) as Px.
    destruct (qlt_spec (qmin (rx1 (ts_bbox t)) (rx1 (sh_bbox s))) (qmax (rx0 (ts_bbox t)) (rx0 (sh_bbox s)))) as [L|L]; [exfalso; lra|].
    destruct (qlt_spec (qmin (ry1 (ts_bbox t)) (ry1 (sh_bbox s))) (qmax (ry0 (ts_bbox t)) (ry0 (sh_bbox s)))) as [L'|L']; [exfalso; lra|]. cbn [orb].
    unfold area at 1 4, rwidth, rheight. cbn [rx0 rx1 ry0 ry1]. rewrite Ex0, Ex1. clear F. set (y := qmin (ry1 _) _ - qmax _ _) in *. set (x := rx1 (ts_bbox t) - rx0 (ts_bbox t)). assert (Hx : 0 < x) by (unfold x; lra).
    split; [apply Qmult_lt_0_compat; lra|].
    assert (M : qmin (area (ts_bbox t)) (area (sh_bbox s)) <= area (ts_bbox t)) by (unfold qmin; qcases; lra).
    assert (At : Qeq (area (ts_bbox t)) (x * hs)) by reflexivity. clearbody x y hs. 
    assert (T : x * ((3 # 4) * hs) <= x * y) by (apply (proj2 (Qmult_le_l _ _ x Hx)); exact Ky). set (m := qmin _ _) in *. set (ar := area (ts_bbox t)) in *. clearbody m ar. setoid_replace (x * ((3 # 4) * hs)) with ((3 # 4) * (x * hs)) in T by ring. set (xh := x * hs) in *. clearbody xh. lra.
  - destruct Sh as (_ & A & C). assert (Q1 : qle ((1 # 2) * hs) (ry1 (sh_bbox s) - ry0 (sh_bbox s)) = false) by (destruct (qle_spec ((1 # 2) * hs) (ry1 (sh_bbox s) - ry0 (sh_bbox s))) as [X|X]; [exfalso; rewrite Kb in X; rewrite H2 in A; unfold rheight in A; lra|reflexivity]).
    rewrite Q1. fold d' in C. rewrite H4 in C. assert (Q2 : qle d ((1 # 4) * hs) = true) by (apply qle_iff; lra). rewrite Q2. reflexivity.
  - destruct Sh as (_ & A & C1 & C2). assert (Q1 : qle ((1 # 2) * hs) (ry1 (sh_bbox s) - ry0 (sh_bbox s)) = false) by (destruct (qle_spec ((1 # 2) * hs) (ry1 (sh_bbox s) - ry0 (sh_bbox s))) as [X|X]; [exfalso; rewrite Kb in X; rewrite H2 in A; unfold rheight in A; lra|reflexivity]).
    rewrite Q1. fold d' in C1, C2. rewrite H in C1, C2. assert (Q2 : qle d ((1 # 4) * hs) = false) by (destruct (qle_spec d ((1 # 4) * hs)); [exfalso; lra|reflexivity]). rewrite Q2.
    assert (Q3 : qlt ((35 # 100) * hs) d = true) by (apply qlt_iff; lra). assert (Q4 : qlt d ((75 # 100) * hs) = true) by (apply qlt_iff; lra). rewrite Q3, Q4. reflexivity.
Qed.
Definition style_of (k : rtype) (s : shape) : style := mkStyle k (sh_color s) (match k with R_HYPERLINK => sh_uri s | _ => O end).
Lemma shows_usable s b k : shows s b k -> usable s.
Proof. destruct k; cbn [shows]; try tauto; unfold usable; [right|right|right|left; assumption]; destruct H as (-> & _); cbn; auto 10. Qed.
Definition still (s0 s : shape) : Prop := kin s0 s /\ (sh_type s0 = R_HYPERLINK -> s = s0).
Lemma still_refl s : still s s.
Proof. split; [left; reflexivity|reflexivity]. Qed.
Lemma still_box a b : still a b -> sh_bbox b = sh_bbox a.
Proof. intros [K _]. apply kin_box, K. Qed.
Lemma still_format h um s0 s : usable s0 -> still s0 s -> still s0 (snd (parse_format h um s)).
Proof.
  intros U [K L]. split; [eapply kin_trans; [exact K|]; apply parse_format_from; eapply kin_usable; eassumption|].
  intros T. rewrite (L T). unfold parse_format. rewrite T. reflexivity.
Qed.
Lemma mean_format um b s k : proper (ts_bbox um) -> ry0 (ts_bbox um) == ry0 b -> ry1 (ts_bbox um) == ry1 b -> proper (sh_bbox s) ->
  rx0 (sh_bbox s) <= rx0 (ts_bbox um) -> rx1 (ts_bbox um) <= rx1 (sh_bbox s) ->
  forall s0, still s0 s -> shows s0 b k -> fst (parse_format true um s) = add_style um (style_of k s0).
Proof.
  intros Pu E0 E1 Ps X0 X1 s0 [K Lk] Sh. pose proof (kin_usable _ _ K (shows_usable _ _ _ Sh)) as U.
  assert (Kc : sh_color s = sh_color s0) by (destruct K as [->|[_ ->]]; reflexivity).
  destruct (rtype_eqb k R_HYPERLINK) eqn:Ek.
  - assert (k = R_HYPERLINK) as -> by (destruct k; try discriminate; reflexivity). cbn [shows] in Sh. rewrite (Lk Sh). unfold parse_format. rewrite Sh. reflexivity.
  - assert (N : k <> R_HYPERLINK) by (intros ->; discriminate Ek). pose proof (mean_type um b s k Pu E0 E1 Ps X0 X1 s0 K Sh N) as T.
    assert (M : In (sh_type s) text_meanings) by (destruct K as [->|[M _]]; [|exact M]; destruct k; cbn [shows] in Sh; try tauto; try congruence; destruct Sh as (-> & _); cbn; auto).
    assert (Nu : k <> R_UNDEFINED) by (intros ->; exact Sh).
    unfold parse_format. rewrite T. assert (F : rtype_eqb k R_UNDEFINED = false) by (destruct k; try reflexivity; congruence). rewrite F.
    assert (St : mkStyle k (sh_color s) 0 = style_of k s0) by (unfold style_of; rewrite Kc; destruct k; try reflexivity; congruence). rewrite St.
    cbn in M. destruct (sh_type s); try reflexivity; intuition discriminate.
Qed.

(* ---------------- characters in a row ---------------- *)
Lemma laid_app l r : laid_out true (l ++ r) -> laid_out true l /\ laid_out true r /\ forall a b, In a l -> In b r -> rx1 (ch_bbox a) <= rx0 (ch_bbox b).
Proof.
  intros ((y0 & y1 & R) & F). split; [|split].
  - split; [exists y0, y1; intros c Hc; apply R, in_or_app; left; exact Hc|]. intros i j a b Hij Ha Hb. apply (F i j a b Hij); rewrite nth_error_app1; try assumption; apply nth_error_Some; congruence.
  - split; [exists y0, y1; intros c Hc; apply R, in_or_app; right; exact Hc|]. intros i j a b Hij Ha Hb. apply (F (length l + i)%nat (length l + j)%nat a b); [lia| |]; rewrite nth_error_app2 by lia; (replace (length l + i - length l)%nat with i by lia) || (replace (length l + j - length l)%nat with j by lia); assumption.
  - intros a b Ha Hb. apply In_nth_error in Ha, Hb. destruct Ha as (i & Ha), Hb as (j & Hb). assert (Li : (i < length l)%nat) by (apply nth_error_Some; congruence).
    apply (F i (length l + j)%nat a b); [lia|rewrite nth_error_app1 by exact Li; exact Ha|rewrite nth_error_app2 by lia; replace (length l + j - length l)%nat with j by lia; exact Hb].
Qed.
Lemma laid_proper cs c : laid_out true cs -> In c cs -> proper (ch_bbox c).
Proof. intros ((y0 & y1 & R) & _) Hc. apply (R c Hc). Qed.
(** Along the row only. *)
Definition half_x (s : rect) (c : char) : Prop := (rx1 (ch_bbox c) - rx0 (ch_bbox c)) / 2 < qmin (rx1 (ch_bbox c)) (rx1 s) - qmax (rx0 (ch_bbox c)) (rx0 s).
Lemma half_over t s c : set_text t -> In c (ts_chars t) -> over s (ts_bbox t) -> half_covered true s c <-> half_x s c.
Proof.
  intros (_ & _ & _ & H) Hc (_ & _ & O3 & O4). destruct (H c Hc) as (E0 & E1 & _ & _). unfold half_covered, half_x. cbn [negb hi lo]. split; [intros (_ & _ & X); exact X|]. intros X. split; [lra|]. split; [lra|exact X].
Qed.
Lemma half_meets s c : proper (ch_bbox c) -> half_x s c -> rx0 (ch_bbox c) < rx1 s /\ rx0 s < rx1 (ch_bbox c).
Proof. intros [P _] H. unfold half_x in H. setoid_replace ((rx1 (ch_bbox c) - rx0 (ch_bbox c)) / 2) with ((1 # 2) * (rx1 (ch_bbox c) - rx0 (ch_bbox c))) in H by field. revert H. unfold qmin, qmax. qcases; intros; split; lra. Qed.
Lemma half_apart a b c : proper (ch_bbox c) -> gap_between a b -> half_x a c -> half_x b c -> False.
Proof.
  intros [P _] B H1 H2. unfold half_x in *. setoid_replace ((rx1 (ch_bbox c) - rx0 (ch_bbox c)) / 2) with ((1 # 2) * (rx1 (ch_bbox c) - rx0 (ch_bbox c))) in H1 by field.
  setoid_replace ((rx1 (ch_bbox c) - rx0 (ch_bbox c)) / 2) with ((1 # 2) * (rx1 (ch_bbox c) - rx0 (ch_bbox c))) in H2 by field. revert H1 H2. unfold qmin, qmax. destruct B as [B|B]; qcases; intros; lra.
Qed.
Lemma half_same a b c : same_extent a b -> half_x a c -> half_x b c.
Proof. intros [E0 E1] H. unfold half_x in *. revert H. unfold qmin, qmax. qcases; intros; lra. Qed.
Lemma clear_half t s c : set_text t -> In c (ts_chars t) -> clear_of s (ts_bbox t) -> ~ half_covered true s c.
Proof.
  intros (_ & _ & L & H) Hc C (A & B & X). destruct (H c Hc) as (E0 & E1 & E2 & E3). cbn [negb hi lo] in A, B, X. pose proof (laid_proper _ _ L Hc) as P.
  destruct (half_meets s c P X) as [M1 M2]. destruct C as [C|[C|[C|C]]]; lra.
Qed.
Lemma over_clear a b : over a b -> clear_of a b -> False.
Proof. unfold over, clear_of. intros (A & B & C & D) [X|[X|[X|X]]]; lra. Qed.
Lemma over_half t s c : set_text t -> In c (ts_chars t) -> over s (ts_bbox t) -> half_covered true s c -> rx0 (ch_bbox c) < rx1 s /\ rx0 s < rx1 (ch_bbox c).
Proof. intros S Hc O H. apply half_meets; [apply (laid_proper (ts_chars t)); [apply S|exact Hc]|apply (half_over t s c S Hc O), H]. Qed.
