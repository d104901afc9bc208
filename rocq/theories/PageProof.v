(** Lemmas about margins and settings. *)
From Verif Require Import GeomModel GeomSpec GeomProof PyBaseProof PageModel PageSpec.
From Coq Require Import Lia.
Open Scope Q_scope.

Lemma round1_decimal_fixed x : decimal 10 x -> round1 x == x. Proof. apply round_p_fixed. Qed.
Lemma round1_mono x y : x <= y -> round1 x <= round1 y. Proof. apply round_p_mono. Qed.
Lemma round1_0 : round1 0 == 0. Proof. apply round1_decimal_fixed, decimal_0. Qed.

Lemma union_cases a b : valid a -> valid b ->
  (rect_empty b = true /\ runion a b = a) \/ (rect_empty a = true /\ proper b /\ runion a b = b) \/
  (proper a /\ proper b /\ proper (runion a b) /\ covers (runion a b) a /\ covers (runion a b) b /\
   (forall c, covers c a -> covers c b -> covers c (runion a b))).
Proof.
  intros Va Vb. destruct (valid_dec b Vb) as [E|P]; [left; unfold runion; rewrite E; auto|].
  destruct (valid_dec a Va) as [E|Pa]; [right; left; unfold runion; rewrite E, (proper_nonempty b P); auto|].
  right; right. destruct (runion_covers a b Pa P) as (C1 & C2 & C3 & _). repeat (split; [assumption|]).
  intros c (A1 & A2 & A3 & A4) (B1 & B2 & B3 & B4). unfold runion. rewrite (proper_nonempty b P), (proper_nonempty a Pa).
  unfold covers. cbn. unfold qmin, qmax. repeat split; qcases; lra.
Qed.
Lemma not_proper_empty a : rect_empty a = true -> ~ proper a.
Proof. intros E P. rewrite (proper_nonempty a P) in E. discriminate. Qed.

Lemma fold_union l : forall r, normal_box r -> (forall e, In e l -> normal_box (e_bbox e)) ->
  let q := fold_left (fun r e => runion r (e_bbox e)) l r in
  normal_box q /\ (proper r -> covers q r) /\ (forall e, In e l -> proper (e_bbox e) -> covers q (e_bbox e)) /\
  (proper r -> proper q) /\ (forall e, In e l -> proper (e_bbox e) -> proper q) /\
  (forall c, (proper r -> covers c r) -> (forall e, In e l -> proper (e_bbox e) -> covers c (e_bbox e)) -> proper q -> covers c q).
Proof.
  induction l as [|e t IH]; intros r Hr Hl.
  - cbn. split; [exact Hr|]. split; [intros _; apply covers_refl|]. split; [intros e []|]. split; [auto|]. split; [intros e []|]. auto.
  - assert (He := Hl e (or_introl eq_refl)). destruct Hr as [Vr Dr], He as [Ve De].
    cbn [fold_left]. destruct (IH (runion r (e_bbox e))) as (N & Q1 & Q2 & Q3 & Q4 & Q5).
    { split; [|apply runion_decimal; assumption]. destruct (union_cases r (e_bbox e) Vr Ve) as [[_ ->]|[(_ & P & ->)|(_ & _ & P & _)]];
        [exact Vr|exact Ve|apply proper_valid; exact P]. }
    { intros x Hx. apply Hl. right. exact Hx. }
    set (q := fold_left (fun r e => runion r (e_bbox e)) t (runion r (e_bbox e))) in *.
    cbv zeta. split; [exact N|].
    destruct (union_cases r (e_bbox e) Vr Ve) as [[Ee Eu]|[(Er & Pe & Eu)|(Pr & Pe & Pu & C1 & C2 & C3)]].
    + rewrite Eu in *. pose proof (not_proper_empty _ Ee) as Ne.
      split; [exact Q1|]. split; [intros x [<-|Hx] Px; [contradiction|apply Q2; assumption]|].
      split; [exact Q3|]. split; [intros x [<-|Hx] Px; [contradiction|apply (Q4 x); assumption]|].
      intros c Hc Hcs. apply Q5; [exact Hc|]. intros x Hx. apply Hcs. right. exact Hx.
    + rewrite Eu in *. pose proof (not_proper_empty _ Er) as Nr.
      split; [contradiction|]. split; [intros x [<-|Hx] Px; [apply Q1; exact Pe|apply Q2; assumption]|].
      split; [contradiction|]. split; [intros x _ _; apply Q3; exact Pe|].
      intros c Hc Hcs. apply Q5; [intros _; apply Hcs; [left; reflexivity|exact Pe]|]. intros x Hx. apply Hcs. right. exact Hx.
    + assert (Cq : covers q (runion r (e_bbox e))) by (apply Q1; exact Pu).
      split; [intros _; eapply covers_trans; [exact Cq|exact C1]|].
      split; [intros x [<-|Hx] Px; [eapply covers_trans; [exact Cq|exact C2]|apply Q2; assumption]|].
      split; [intros _; apply Q3; exact Pu|]. split; [intros x _ _; apply Q3; exact Pu|].
      intros c Hc Hcs Pq. apply Q5; [|intros x Hx; apply Hcs; right; exact Hx|exact Pq].
      intros _. apply C3; [apply Hc; exact Pr|]. apply Hcs; [left; reflexivity|exact Pe].
Qed.
Lemma normal_rect0 : normal_box rect0.
Proof. split; [unfold valid; cbn; lra|]. unfold rect_decimal. cbn. repeat split; apply decimal_0. Qed.
Lemma not_proper_rect0 : ~ proper rect0. Proof. unfold proper. cbn. lra. Qed.
Lemma covers_req_l' a a' b : req a a' -> covers a b -> covers a' b.
Proof. unfold req, covers. intros (A & B & C & D) (E & F & G & H). repeat split; lra. Qed.
Lemma coll_bbox_spec l : (forall e, In e l -> normal_box (e_bbox e)) ->
  normal_box (coll_bbox l) /\ (forall e, In e l -> proper (e_bbox e) -> covers (coll_bbox l) (e_bbox e) /\ proper (coll_bbox l)) /\
  (forall c, (forall e, In e l -> proper (e_bbox e) -> covers c (e_bbox e)) -> proper (coll_bbox l) -> covers c (coll_bbox l)).
Proof.
  intros H. destruct (fold_union l rect0 normal_rect0 H) as ((V & D) & _ & Q2 & _ & Q4 & Q5).
  unfold coll_bbox. set (q := fold_left (fun r e => runion r (e_bbox e)) l rect0) in *.
  assert (E : req (rround q) q) by (apply rround_fixed; exact D).
  split; [split; [apply rround_valid; exact V|apply rround_decimal]|]. split.
  - intros e He Pe. split; [eapply covers_req_l'; [|apply Q2; eassumption]|].
    + destruct E as (A & B & C & F). unfold req. repeat split; symmetry; assumption.
    + eapply proper_req; [|exact (Q4 e He Pe)]. destruct E as (A & B & C & F). unfold req. repeat split; symmetry; assumption.
  - intros c Hc Pq. assert (Pq' : proper q) by (eapply proper_req; [exact E|exact Pq]).
    assert (Cq : covers c q) by (apply Q5; [intros P; contradiction (not_proper_rect0 P)|exact Hc|exact Pq']).
    destruct E as (A & B & C & F), Cq as (G1 & G2 & G3 & G4). unfold covers. repeat split; lra.
Qed.
(** The content box of a page. *)
Lemma content_spec bl sh : (forall e, In e (bl ++ sh) -> normal_box (e_bbox e)) ->
  let r := runion (coll_bbox bl) (coll_bbox sh) in
  normal_box r /\ (forall e, In e (bl ++ sh) -> proper (e_bbox e) -> covers r (e_bbox e) /\ proper r) /\
  (forall c, (forall e, In e (bl ++ sh) -> proper (e_bbox e) -> covers c (e_bbox e)) -> proper r -> covers c r).
Proof.
  intros H. destruct (coll_bbox_spec bl) as ((V1 & D1) & C1 & S1); [intros e He; apply H; apply in_or_app; auto|].
  destruct (coll_bbox_spec sh) as ((V2 & D2) & C2 & S2); [intros e He; apply H; apply in_or_app; auto|].
  cbv zeta. destruct (union_cases (coll_bbox bl) (coll_bbox sh) V1 V2) as [[E Eu]|[(E & P & Eu)|(Pa & Pb & Pu & A & B & Ls)]].
  - rewrite Eu. pose proof (not_proper_empty _ E) as N. split; [split; assumption|]. split.
    + intros e He Pe. apply in_app_or in He. destruct He as [He|He]; [apply C1; assumption|].
      destruct (C2 e He Pe) as [_ Pc]. contradiction.
    + intros c Hc. apply S1. intros e He. apply Hc. apply in_or_app. auto.
  - rewrite Eu. pose proof (not_proper_empty _ E) as N. split; [split; assumption|]. split.
    + intros e He Pe. apply in_app_or in He. destruct He as [He|He]; [|apply C2; assumption].
      destruct (C1 e He Pe) as [_ Pc]. contradiction.
    + intros c Hc. apply S2. intros e He. apply Hc. apply in_or_app. auto.
  - split; [split; [apply proper_valid; exact Pu|apply runion_decimal; assumption]|]. split.
    + intros e He Pe. split; [|exact Pu]. apply in_app_or in He. destruct He as [He|He].
      * eapply covers_trans; [exact A|apply C1; assumption].
      * eapply covers_trans; [exact B|apply C2; assumption].
    + intros c Hc _. apply Ls; [apply S1; [|exact Pa]|apply S2; [|exact Pb]]; intros e He; apply Hc; apply in_or_app; auto.
Qed.

Lemma cal_margin_eq bl sh w h ft fb : bl ++ sh <> [] ->
  let r := runion (coll_bbox bl) (coll_bbox sh) in
  cal_margin bl sh w h ft fb =
  mkMargin (qmin ITP (round1 (qmax (rx0 r - 0) 0))) (qmin ITP (round1 (qmax (w - rx1 r - MINOR_DIST) 0)))
           (qmin ITP (round1 (qmax (ry0 r - 0) 0 * ft))) (qmin ITP (round1 (qmax (h - ry1 r) 0 * fb))).
Proof. intros H. unfold cal_margin. destruct bl; [destruct sh; [contradiction H; reflexivity|]|]; reflexivity. Qed.

Lemma clip_range x : 0 <= x -> 0 <= qmin ITP (round1 x) <= 72.
Proof.
  intros H. pose proof (round1_mono 0 x H) as M. rewrite round1_0 in M. unfold qmin, ITP. qcases; lra.
Qed.
Lemma margin_range bl sh w h ft fb : 0 <= ft -> 0 <= fb ->
  let m := cal_margin bl sh w h ft fb in
  (0 <= m_left m <= 72) /\ (0 <= m_right m <= 72) /\ (0 <= m_top m <= 72) /\ (0 <= m_bottom m <= 72).
Proof.
  intros Hf Hb. destruct (bl ++ sh) as [|e t] eqn:E.
  - apply app_eq_nil in E. destruct E as [-> ->]. cbn. unfold ITP. repeat split; lra.
  - rewrite cal_margin_eq by congruence. cbv zeta. cbn [m_left m_right m_top m_bottom].
    assert (P : forall x f, 0 <= f -> 0 <= qmax x 0 * f) by (intros x f Hx; apply Qmult_le_0_compat; [apply qmax_r|exact Hx]).
    repeat (split; [apply clip_range; first [apply qmax_r|apply P; assumption]|]). apply clip_range; apply P; assumption.
Qed.

Lemma margin_content bl sh w h ft fb e : 0 <= ft <= 1 -> 0 <= fb <= 1 ->
  (forall x, In x (bl ++ sh) -> normal_box (e_bbox x)) -> (forall x, In x (bl ++ sh) -> proper (e_bbox x) -> inside_page w h x) ->
  In e (bl ++ sh) -> proper (e_bbox e) ->
  let m := cal_margin bl sh w h ft fb in
  m_left m <= rx0 (e_bbox e) /\ m_right m <= w - rx1 (e_bbox e) /\ m_top m <= ry0 (e_bbox e) /\
  m_bottom m <= h - ry1 (e_bbox e) + (1 # 20).
Proof.
  intros Ht Hb Hn Hi He Pe. rewrite cal_margin_eq by (intros E; rewrite E in He; destruct He). cbv zeta.
  destruct (content_spec bl sh Hn) as ((V & (D1 & D2 & D3 & D4)) & C & S). cbv zeta in *.
  set (r := runion (coll_bbox bl) (coll_bbox sh)) in *. destruct (C e He Pe) as [(C1 & C2 & C3 & C4) Pr].
  assert (Cp : covers (mkRect 0 0 w h) r) by (apply S; [exact Hi|exact Pr]). destruct Cp as (P1 & P2 & P3 & P4). cbn [rx0 ry0 rx1 ry1] in *.
  cbn [m_left m_right m_top m_bottom]. unfold MINOR_DIST.
  assert (Hx : qmax (rx0 r - 0) 0 == rx0 r) by (unfold qmax; qcases; lra).
  assert (Hy : qmax (ry0 r - 0) 0 == ry0 r) by (unfold qmax; qcases; lra).
  assert (Hh : qmax (h - ry1 r) 0 == h - ry1 r) by (unfold qmax; qcases; lra).
  assert (L1 : forall x, qmin ITP x <= x) by (intros x; apply qmin_r).
  split; [|split; [|split]].
  - eapply Qle_trans; [apply L1|]. pose proof (round_p_comp 10 _ _ Hx) as R. change (round_p 10) with round1 in R. rewrite R.
    rewrite (round1_decimal_fixed _ D1). exact C1.
  - eapply Qle_trans; [apply L1|]. eapply Qle_trans with (w - rx1 r); [|lra].
    unfold qmax. destruct (qlt_spec (w - rx1 r - 1) 0) as [G|G]; [rewrite round1_0; lra|].
    pose proof (round1_bound (w - rx1 r - 1)). lra.
  - eapply Qle_trans; [apply L1|]. eapply Qle_trans with (round1 (ry0 r)); [apply round1_mono; rewrite Hy|rewrite (round1_decimal_fixed _ D2); exact C2].
    nra.
  - eapply Qle_trans; [apply L1|]. pose proof (round1_bound (qmax (h - ry1 r) 0 * fb)) as B.
    assert (qmax (h - ry1 r) 0 * fb <= h - ry1 r) by (rewrite Hh; nra). lra.
Qed.
Lemma decimal_gap x y : decimal 10 x -> decimal 10 y -> x < y -> x + (1 # 10) <= y.
Proof.
  intros (a & Ha) (b & Hb) H. rewrite Ha, Hb in *. clear Ha Hb.
  assert (Hz : (a < b)%Z).
  { apply inject_Z_lt. unfold Qdiv in H. change (/ inject_Z 10) with (1 # 10) in H. lra. }
  assert (inject_Z (a + 1) <= inject_Z b) by (apply inject_Z_le; lia). rewrite inject_Z_plus in H0. change (inject_Z 1) with 1 in H0.
  unfold Qdiv. change (/ inject_Z 10) with (1 # 10). lra.
Qed.

(** Settings. *)
Lemma dget_dset d k v k' : dget (dset d k v) k' = if String.eqb k' k then Some v else dget d k'.
Proof.
  induction d as [|[a b] t IH]; cbn; [reflexivity|].
  destruct (String.eqb_spec k a) as [<-|N]; cbn.
  - destruct (String.eqb_spec k' k); reflexivity.
  - rewrite IH. destruct (String.eqb_spec k' a) as [->|M]; [|reflexivity].
    destruct (String.eqb_spec a k) as [E|_]; [congruence|reflexivity].
Qed.
Lemma dget_app d e k : dget (d ++ e) k = match dget d k with Some v => Some v | None => dget e k end.
Proof. induction d as [|[a b] t IH]; cbn; [reflexivity|]. destruct (String.eqb k a); [reflexivity|exact IH]. Qed.
Lemma dget_update s : forall d k, NoDup (map fst s) -> dget (dupdate d s) k = match dget s k with Some v => Some v | None => dget d k end.
Proof.
  unfold dupdate. induction s as [|[a b] t IH]; intros d k N; cbn [fold_left fst snd]; [reflexivity|].
  inversion N as [|? ? Na Nt]; subst. rewrite IH by exact Nt. cbn [dget]. rewrite dget_dset.
  destruct (String.eqb_spec k a) as [->|M]; [|reflexivity].
  destruct (dget t a) as [v|] eqn:E; [|reflexivity]. exfalso. apply Na.
  clear - E. induction t as [|[c d] t IH]; [discriminate|]. cbn in *. destruct (String.eqb_spec a c) as [->|_]; [left; reflexivity|right; apply IH; exact E].
Qed.
Definition given (s : option dict) : dict := match s with Some d => d | None => [] end.
Lemma init_settings_spec s k : NoDup (map fst (given s)) ->
  dget (init_settings s) k = match dget (given s) k with Some v => Some v | None => dget default_settings k end.
Proof.
  intros N. destruct s as [[|kv t]|]; try reflexivity. apply (dget_update (kv :: t) default_settings k N).
Qed.

Lemma fold_set_length d idx : forall ps, List.length (fold_left (fun ps i => set_page ps i d) idx ps) = List.length ps.
Proof. induction idx as [|i t IH]; intros ps; cbn; [reflexivity|]. rewrite IH. apply update_length. Qed.
Lemma fold_set_nth d idx i : forall ps, (i < List.length ps)%nat ->
  nth_error (fold_left (fun ps i => set_page ps i d) idx ps) i = if existsb (Nat.eqb i) idx then Some d else nth_error ps i.
Proof.
  induction idx as [|j t IH]; intros ps H; cbn [fold_left existsb]; [reflexivity|].
  rewrite IH by (unfold set_page; rewrite update_length; exact H).
  destruct (existsb (Nat.eqb i) t) eqn:E; [rewrite orb_true_r; reflexivity|]. rewrite orb_false_r. unfold set_page.
  destruct (Nat.eqb_spec i j) as [<-|N].
  - rewrite nth_error_update_eq. destruct (nth_error ps i) eqn:F; [reflexivity|]. apply nth_error_None in F. lia.
  - rewrite nth_error_update_ne by exact N. reflexivity.
Qed.
Lemma existsb_seq i n : (i < n)%nat -> existsb (Nat.eqb i) (seq 0 n) = true.
Proof. intros H. apply existsb_exists. exists i. split; [apply in_seq; lia|apply Nat.eqb_refl]. Qed.
Lemma parse_call_nth c ps i : (i < List.length ps)%nat ->
  nth_error (parse_call ps c) i = if selects i c then Some (init_settings (snd c)) else nth_error ps i.
Proof.
  intros H. unfold parse_call, selects. rewrite fold_set_nth by exact H.
  destruct (fst c) as [|x t]; [rewrite existsb_seq by exact H; reflexivity|reflexivity].
Qed.
Lemma parse_calls_nth calls : forall ps i, (i < List.length ps)%nat ->
  nth_error (parse_calls ps calls) i = match last_selecting i calls with Some s => Some (init_settings s) | None => nth_error ps i end.
Proof.
  unfold parse_calls. induction calls as [|c t IH]; intros ps i H; cbn [fold_left last_selecting]; [reflexivity|].
  rewrite IH by (unfold parse_call; rewrite fold_set_length; exact H).
  destruct (last_selecting i t); [reflexivity|]. rewrite parse_call_nth by exact H. destruct (selects i c); reflexivity.
Qed.
Lemma settings_of_page n calls i : (i < n)%nat ->
  nth_error (parse_calls (new_pages n) calls) i =
  Some (match last_selecting i calls with Some s => init_settings s | None => init_settings None end).
Proof.
  intros H. rewrite parse_calls_nth by (unfold new_pages; rewrite repeat_length; exact H).
  destruct (last_selecting i calls); [reflexivity|]. unfold new_pages. rewrite (nth_error_nth' _ (init_settings None)) by (rewrite repeat_length; exact H).
  f_equal. apply nth_repeat.
Qed.
