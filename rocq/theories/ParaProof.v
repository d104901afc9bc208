From Verif Require Import GeomModel GeomSpec GeomProof GraphModel GraphSpec GraphProof TextModel ParaModel ParaSpec.
From Coq Require Import Lia Permutation Lqa Sorted.
Open Scope Q_scope.

Lemma qabs_Qabs' x : qabs x == Qabs x.
Proof. unfold qabs. destruct (qlt_spec x 0); [rewrite Qabs_neg by lra|rewrite Qabs_pos by lra]; reflexivity. Qed.
Lemma Qabs_le x t : Qabs x <= t <-> - t <= x /\ x <= t.
Proof. apply Qabs_Qle_condition. Qed.

(* ------------------------------------------------------------------ *)
(** * Spread *)
Lemma fold_max_spec t : forall x, (fold_left qmax t x = x \/ In (fold_left qmax t x) t) /\ x <= fold_left qmax t x /\ forall y, In y t -> y <= fold_left qmax t x.
Proof.
  induction t as [|z t IH]; intros x; cbn [fold_left]; [split; [left; reflexivity|split; [apply Qle_refl|intros y []]]|].
  destruct (IH (qmax x z)) as (A & B & C). pose proof (qmax_l x z). pose proof (qmax_r x z). split; [|split].
  - destruct A as [A|A]; [|right; right; exact A]. rewrite A. destruct (qmax_case x z) as [->| ->]; [left; reflexivity|right; left; reflexivity].
  - lra.
  - intros y [<-|Hy]; [lra|apply C; exact Hy].
Qed.
Lemma fold_min_spec t : forall x, (fold_left qmin t x = x \/ In (fold_left qmin t x) t) /\ fold_left qmin t x <= x /\ forall y, In y t -> fold_left qmin t x <= y.
Proof.
  induction t as [|z t IH]; intros x; cbn [fold_left]; [split; [left; reflexivity|split; [apply Qle_refl|intros y []]]|].
  destruct (IH (qmin x z)) as (A & B & C). pose proof (qmin_l x z). pose proof (qmin_r x z). split; [|split].
  - destruct A as [A|A]; [|right; right; exact A]. rewrite A. destruct (qmin_case x z) as [->| ->]; [left; reflexivity|right; left; reflexivity].
  - lra.
  - intros y [<-|Hy]; [lra|apply C; exact Hy].
Qed.
Lemma qmaxl_spec l : l <> [] -> In (qmaxl l) l /\ forall y, In y l -> y <= qmaxl l.
Proof.
  destruct l as [|x t]; [congruence|]. intros _. cbn [qmaxl]. destruct (fold_max_spec t x) as (A & B & C).
  split; [destruct A as [->|A]; [left; reflexivity|right; exact A]|]. intros y [<-|Hy]; [exact B|apply C; exact Hy].
Qed.
Lemma qminl_spec l : l <> [] -> In (qminl l) l /\ forall y, In y l -> qminl l <= y.
Proof.
  destruct l as [|x t]; [congruence|]. intros _. cbn [qminl]. destruct (fold_min_spec t x) as (A & B & C).
  split; [destruct A as [->|A]; [left; reflexivity|right; exact A]|]. intros y [<-|Hy]; [exact B|apply C; exact Hy].
Qed.
Lemma spread_within l t : l <> [] -> qle (spread l) t = true <-> within t l.
Proof.
  intros N. destruct (qmaxl_spec l N) as (A & B), (qminl_spec l N) as (C & D). rewrite qle_iff. unfold spread. rewrite qabs_Qabs'. split.
  - intros H x y Hx Hy. apply Qabs_le in H. apply Qabs_le. pose proof (B x Hx). pose proof (B y Hy). pose proof (D x Hx). pose proof (D y Hy). lra.
  - intros H. apply H; assumption.
Qed.

(* ------------------------------------------------------------------ *)
(** * Rows *)
Lemma row_last_snoc h t l : row_last h (t ++ [l]) = lend h l.
Proof. induction t as [|a t IH]; [reflexivity|]. cbn [app row_last]. destruct (t ++ [l]) eqn:E; [destruct t; discriminate|exact IH]. Qed.
Lemma last_exists (r : list line) : r <> [] -> exists l, last_line r l.
Proof. intros N. destruct (@exists_last _ r N) as (t & l & E). exists l, t. exact E. Qed.
Lemma lefts_spec h t rows : (forall r, In r rows -> r <> []) -> within t (map (row_first h) rows) <-> lefts_within h t rows.
Proof.
  intros N. split.
  - intros W r1 r2 a b H1 H2 (t1 & E1) (t2 & E2). apply W; apply in_map_iff; [exists r1|exists r2]; (split; [|assumption]); subst; reflexivity.
  - intros L x y Hx Hy. apply in_map_iff in Hx, Hy. destruct Hx as (r1 & <- & H1), Hy as (r2 & <- & H2).
    destruct r1 as [|a t1]; [destruct (N _ H1); reflexivity|]. destruct r2 as [|b t2]; [destruct (N _ H2); reflexivity|].
    apply (L _ _ a b H1 H2); eexists; reflexivity.
Qed.
Lemma rights_spec h t rows : (forall r, In r rows -> r <> []) -> within t (map (row_last h) rows) <-> rights_within h t rows.
Proof.
  intros N. split.
  - intros W r1 r2 a b H1 H2 (t1 & E1) (t2 & E2). apply W; apply in_map_iff; [exists r1|exists r2]; (split; [|assumption]); subst; rewrite row_last_snoc; reflexivity.
  - intros L x y Hx Hy. apply in_map_iff in Hx, Hy. destruct Hx as (r1 & <- & H1), Hy as (r2 & <- & H2).
    destruct (last_exists r1 (N _ H1)) as (a & Ha), (last_exists r2 (N _ H2)) as (b & Hb). pose proof (L _ _ a b H1 H2 Ha Hb) as R.
    destruct Ha as (t1 & ->), Hb as (t2 & ->). rewrite !row_last_snoc. exact R.
Qed.
Lemma middles_spec h t rows : (forall r, In r rows -> r <> []) ->
  within t (map (fun r => (row_first h r + row_last h r) / 2) rows) <-> middles_within h t rows.
Proof.
  intros N. split.
  - intros W r1 r2 a a' b b' H1 H2 Ha Ha' Hb Hb'.
    assert (E1 : row_first h r1 = left_edge h a) by (destruct Ha as (q & ->); reflexivity).
    assert (E2 : row_last h r1 = right_edge h a') by (destruct Ha' as (q & ->); apply row_last_snoc).
    assert (E3 : row_first h r2 = left_edge h b) by (destruct Hb as (q & ->); reflexivity).
    assert (E4 : row_last h r2 = right_edge h b') by (destruct Hb' as (q & ->); apply row_last_snoc).
    rewrite <- E1, <- E2, <- E3, <- E4. apply W; apply in_map_iff; [exists r1|exists r2]; (split; [reflexivity|assumption]).
  - intros L x y Hx Hy. apply in_map_iff in Hx, Hy. destruct Hx as (r1 & <- & H1), Hy as (r2 & <- & H2).
    destruct (last_exists r1 (N _ H1)) as (a' & Ha'), (last_exists r2 (N _ H2)) as (b' & Hb').
    assert (exists a, first_line r1 a) as (a & Ha) by (destruct r1 as [|a t1]; [destruct (N _ H1); reflexivity|exists a, t1; reflexivity]).
    assert (exists b, first_line r2 b) as (b & Hb) by (destruct r2 as [|b t2]; [destruct (N _ H2); reflexivity|exists b, t2; reflexivity]).
    pose proof (L _ _ a a' b b' H1 H2 Ha Ha' Hb Hb') as R.
    assert (E1 : row_first h r1 = left_edge h a) by (destruct Ha as (q & ->); reflexivity).
    assert (E2 : row_last h r1 = right_edge h a') by (destruct Ha' as (q & ->); apply row_last_snoc).
    assert (E3 : row_first h r2 = left_edge h b) by (destruct Hb as (q & ->); reflexivity).
    assert (E4 : row_last h r2 = right_edge h b') by (destruct Hb' as (q & ->); apply row_last_snoc).
    rewrite E1, E2, E3, E4. exact R.
Qed.
Lemma gap_eq h a b : (lstart h b - lend h a) * dirf h == gap h a b.
Proof. unfold lstart, lend, startp, endp, dirf, gap. destruct h; ring. Qed.
Lemma wide_gap_spec h sep r : wide_gap h sep r = true <-> exists pre a b post, r = pre ++ a :: b :: post /\ sep <= gap h a b.
Proof.
  induction r as [|x t IH].
  { split; [discriminate|]. intros (pre & a & b & post & E & _). destruct pre; discriminate. }
  destruct t as [|y t].
  { split; [discriminate|]. intros (pre & a & b & post & E & _). destruct pre as [|p [|p' pre]]; discriminate. }
  change (wide_gap h sep (x :: y :: t)) with (qle sep ((lstart h y - lend h x) * dirf h) || wide_gap h sep (y :: t)).
  rewrite orb_true_iff, qle_iff, gap_eq, IH. split.
  - intros [H|(pre & a & b & post & E & H)]; [exists [], x, y, t; auto|]. exists (x :: pre), a, b, post. rewrite E. auto.
  - intros (pre & a & b & post & E & H). destruct pre as [|p pre]; [injection E as <- <- <-; left; exact H|].
    injection E as <- E. right. exists pre, a, b, post. auto.
Qed.
Lemma has_gap_spec h sep rows : existsb (wide_gap h sep) rows = true <-> has_gap h sep rows.
Proof.
  rewrite existsb_exists. split.
  - intros (r & Hr & H). apply wide_gap_spec in H. destruct H as (pre & a & b & post & E & H). exists r, pre, a, b, post. auto.
  - intros (r & pre & a & b & post & Hr & E & H). exists r. split; [exact Hr|]. apply wide_gap_spec. exists pre, a, b, post. auto.
Qed.

(** The grouping of lines in rows always succeeds, with non-empty rows. *)
Lemma rows_exist order ls : (forall l, Permutation l (order l)) ->
  exists rows, group same_row order ls = Some rows /\ Permutation (concat rows) ls /\ (forall r, In r rows -> r <> []) /\ (ls <> [] -> rows <> []).
Proof.
  intros Ho. destruct (group_perm same_row order Ho ls) as (rows & E & P). exists rows. split; [exact E|]. split; [exact P|].
  destruct (group_indexes_spec same_row order Ho ls) as (gi & G1 & G2 & G3 & G4 & _).
  unfold group in E. rewrite G1 in E. injection E as <-. split.
  - intros r Hr. apply in_map_iff in Hr. destruct Hr as (grp & <- & Hg). specialize (G4 grp Hg). destruct grp as [|i grp]; [congruence|].
    assert (Hi : (i < length ls)%nat) by (apply G3; apply in_concat; exists (i :: grp); split; [exact Hg|left; reflexivity]).
    cbn [flat_map]. unfold item_at at 1. destruct (nth_error ls i) eqn:En; [discriminate|]. apply nth_error_None in En. lia.
  - intros N. destruct gi as [|g gi]; [|discriminate]. cbn in P. apply Permutation_nil in P. congruence.
Qed.

(* ------------------------------------------------------------------ *)
(** * The result of the horizontal step *)
Lemma side_left_eq h bb c : (startp h bb - startp h c) * dirf h == side_left h bb c.
Proof. unfold startp, dirf, side_left. destruct h; ring. Qed.
Lemma side_right_eq h bb c : (endp h c - endp h bb) * dirf h == side_right h bb c.
Proof. unfold endp, dirf, side_right. destruct h; ring. Qed.
Lemma offset_eq h bb l : (lstart h l - startp h bb) * dirf h == line_offset h bb l.
Proof. unfold lstart, startp, dirf, line_offset. destruct h; ring. Qed.
Lemma round_half_even_comp x y : x == y -> round_half_even x = round_half_even y.
Proof.
  intros E. unfold round_half_even. rewrite (Qfloor_comp x y E).
  rewrite (qlt_comp (x - inject_Z (Qfloor y)) (1 # 2) (y - inject_Z (Qfloor y)) (1 # 2)) by lra.
  rewrite (qlt_comp (1 # 2) (x - inject_Z (Qfloor y)) (1 # 2) (y - inject_Z (Qfloor y))) by lra. reflexivity.
Qed.
Lemma round1_comp x y : x == y -> round1 x = round1 y.
Proof. intros E. unfold round1, round_p. rewrite (round_half_even_comp _ (y * inject_Z 10)) by (rewrite E; reflexivity). reflexivity. Qed.
Lemma totals h bb c tc : let '(_, lt, rt) := external_alignment h bb c tc in
  lt = qmax (round1 (side_left h bb c)) 0 /\ rt = qmax (round1 (side_right h bb c)) 0.
Proof. unfold external_alignment. cbv zeta. rewrite (round1_comp _ _ (side_left_eq h bb c)), (round1_comp _ _ (side_right_eq h bb c)). auto. Qed.
Lemma qmax_cases' x y : (qmax x y == x /\ y <= x) \/ (qmax x y == y /\ x <= y).
Proof. unfold qmax. destruct (qlt_spec x y); [right|left]; split; try reflexivity; lra. Qed.
Lemma clip_bound x : Qabs (qmax (round1 x) 0 - (if qlt x 0 then 0 else x)) <= 1 # 20.
Proof.
  pose proof (round1_bound x) as B. apply Qabs_le. destruct (qmax_cases' (round1 x) 0) as [(E & H)|(E & H)]; rewrite E; destruct (qlt_spec x 0); lra.
Qed.
Lemma tl_map {A B} (f : A -> B) l : tl (map f l) = map f (tl l).
Proof. destruct l; reflexivity. Qed.
Lemma removelast_map {A B} (f : A -> B) l : removelast (map f l) = map f (removelast l).
Proof. induction l as [|x t IH]; [reflexivity|]. cbn [map removelast]. destruct t; [reflexivity|]. cbn [map] in *. f_equal. exact IH. Qed.
Lemma in_tl {A} (x : A) l : In x (tl l) -> In x l.
Proof. destruct l; [intros []|right; assumption]. Qed.
Lemma in_removelast {A} (x : A) l : In x (removelast l) -> In x l.
Proof. induction l as [|y t IH]; [intros []|]. cbn [removelast]. destruct t; [intros []|]. intros [<-|H]; [left; reflexivity|right; apply IH; exact H]. Qed.
Lemma internal_cases h th rows : (forall r, In r rows -> r <> []) ->
  let l := lefts_within h (th_left th) (left_rows rows) in
  let r := rights_within h (th_right th) (right_rows rows) in
  let c := middles_within h (th_center th) rows in
  (has_gap h (th_sep th) rows -> internal_alignment h th rows = (A_NONE, None)) /\
  (~ has_gap h (th_sep th) rows -> (length rows < 2)%nat -> internal_alignment h th rows = (A_UNKNOWN, None)) /\
  (~ has_gap h (th_sep th) rows -> (2 <= length rows)%nat ->
     (l /\ r -> internal_alignment h th rows = (if (3 <=? length rows)%nat then A_JUSTIFY else A_UNKNOWN, None)) /\
     (l /\ ~ r -> internal_alignment h th rows = (A_LEFT, Some (row_first h (nth 0 rows []) - row_first h (nth 1 rows [])))) /\
     (~ l /\ r -> internal_alignment h th rows = (A_RIGHT, None)) /\
     (~ l /\ ~ r /\ c -> internal_alignment h th rows = (A_CENTER, None)) /\
     (~ l /\ ~ r /\ ~ c -> internal_alignment h th rows = (A_NONE, None))).
Proof.
  intros N. cbv zeta. unfold internal_alignment. pose proof (has_gap_spec h (th_sep th) rows) as G.
  destruct (existsb (wide_gap h (th_sep th)) rows) eqn:Eg.
  { split; [reflexivity|]. assert (X : has_gap h (th_sep th) rows) by (apply G; reflexivity). split; intros Ng; destruct (Ng X). }
  split; [intros X; apply G in X; discriminate|]. split.
  { intros _ L. destruct (Nat.ltb_spec (length rows) 2); [reflexivity|lia]. }
  intros _ L. destruct (Nat.ltb_spec (length rows) 2); [lia|]. cbv zeta.
  assert (Nr : rows <> []) by (intros ->; cbn in L; lia).
  set (three := (3 <=? length rows)%nat).
  assert (El : (if three then tl (map (row_first h) rows) else map (row_first h) rows) = map (row_first h) (left_rows rows)) by (unfold left_rows; fold three; destruct three; [apply tl_map|reflexivity]).
  assert (Er : (if three then removelast (map (row_last h) rows) else map (row_last h) rows) = map (row_last h) (right_rows rows)) by (unfold right_rows; fold three; destruct three; [apply removelast_map|reflexivity]).
  rewrite El, Er.
  assert (Nl : map (row_first h) (left_rows rows) <> []).
  { unfold left_rows. fold three. destruct rows as [|a [|b t]]; cbn in L; try lia. destruct three; discriminate. }
  assert (Nrr : map (row_last h) (right_rows rows) <> []).
  { unfold right_rows. fold three. destruct rows as [|a [|b t]]; cbn in L; try lia. destruct three; discriminate. }
  assert (Ns : forall r, In r (left_rows rows) -> r <> []) by (intros q Hq; apply N; unfold left_rows in Hq; destruct (3 <=? length rows)%nat; [apply in_tl; exact Hq|exact Hq]).
  assert (Nt : forall r, In r (right_rows rows) -> r <> []) by (intros q Hq; apply N; unfold right_rows in Hq; destruct (3 <=? length rows)%nat; [apply in_removelast; exact Hq|exact Hq]).
  pose proof (spread_within _ (th_left th) Nl) as Sl. rewrite (lefts_spec h (th_left th) _ Ns) in Sl.
  pose proof (spread_within _ (th_right th) Nrr) as Sr. rewrite (rights_spec h (th_right th) _ Nt) in Sr.
  assert (Nm : map (fun r => (row_first h r + row_last h r) / 2) rows <> []) by (destruct rows; [congruence|discriminate]).
  pose proof (spread_within _ (th_center th) Nm) as Sc. rewrite (middles_spec h (th_center th) _ N) in Sc.
  assert (E01 : nth 0 (map (row_first h) rows) 0 - nth 1 (map (row_first h) rows) 0 = row_first h (nth 0 rows []) - row_first h (nth 1 rows [])).
  { destruct rows as [|a [|b t]]; cbn in L; try lia. reflexivity. }
  rewrite E01. clear E01 El Er.
  destruct (qle (spread (map (row_first h) (left_rows rows))) (th_left th)), (qle (spread (map (row_last h) (right_rows rows))) (th_right th)),
    (qle (spread (map (fun r => (row_first h r + row_last h r) / 2) rows)) (th_center th)); cbn [andb];
  repeat split; intros H'; try reflexivity; try (destruct three; reflexivity); exfalso; intuition discriminate.
Qed.
Lemma decided h bb c th ls rows p0 : match pa_align (horizontal_spacing h bb c th ls rows p0) with A_LEFT | A_RIGHT | A_CENTER | A_JUSTIFY => True | _ => False end.
Proof.
  unfold horizontal_spacing. destruct (internal_alignment h th rows) as [ia f].
  assert (E : forall e lt rt, external_alignment h bb c (th_center th) = (e, lt, rt) -> match e with A_CENTER | A_LEFT | A_RIGHT => True | _ => False end).
  { intros e lt rt. unfold external_alignment. cbv zeta. intros H. injection H as <- _ _. destruct (qlt _ _); [exact I|]. destruct (qle _ _); exact I. }
  destruct (external_alignment h bb c (th_center th)) as [[e lt] rt]. specialize (E e lt rt eq_refl).
  destruct ia; try exact I. destruct e; try destruct E; exact I.
Qed.

(* ------------------------------------------------------------------ *)
(** * Tab stops *)
Lemma dedup_In x l : (exists y, In y (dedup l) /\ y == x) <-> exists y, In y l /\ y == x.
Proof.
  induction l as [|a t IH]; [reflexivity|]. cbn [dedup]. destruct (existsb (qeq a) t) eqn:E.
  - rewrite IH. apply existsb_exists in E. destruct E as (b & Hb & Eb). apply qeq_iff in Eb. split.
    + intros (y & Hy & Ey). exists y. split; [right; exact Hy|exact Ey].
    + intros (y & [<-|Hy] & Ey); [exists b; split; [exact Hb|lra]|exists y; auto].
  - split.
    + intros (y & [<-|Hy] & Ey); [exists a; split; [left; reflexivity|exact Ey]|]. destruct (proj1 IH) as (z & Hz & Ez); [exists y; auto|]. exists z. split; [right; exact Hz|exact Ez].
    + intros (y & [<-|Hy] & Ey); [exists a; split; [left; reflexivity|exact Ey]|]. destruct (proj2 IH) as (z & Hz & Ez); [exists y; auto|]. exists z. split; [right; exact Hz|exact Ez].
Qed.
Lemma dedup_incl l x : In x (dedup l) -> In x l.
Proof. induction l as [|a t IH]; [intros []|]. cbn [dedup]. destruct (existsb (qeq a) t); [right; apply IH; assumption|]. intros [<-|H]; [left; reflexivity|right; apply IH; exact H]. Qed.
(** No two entries denote the same number. *)
Inductive distinct : list Q -> Prop :=
| dis_nil : distinct []
| dis_cons x l : (forall y, In y l -> ~ y == x) -> distinct l -> distinct (x :: l).
Lemma dedup_distinct l : distinct (dedup l).
Proof.
  induction l as [|a t IH]; [constructor|]. cbn [dedup]. destruct (existsb (qeq a) t) eqn:E; [exact IH|]. constructor; [|exact IH].
  intros y Hy Ey. apply dedup_incl in Hy. assert (X : existsb (qeq a) t = true); [|congruence].
  apply existsb_exists. exists y. split; [exact Hy|]. apply qeq_iff. lra.
Qed.
Lemma distinct_filter p l : distinct l -> distinct (filter p l).
Proof. induction 1 as [|x l H D IH]; cbn; [constructor|]. destruct (p x); [|exact IH]. constructor; [|exact IH]. intros y Hy. apply filter_In in Hy. apply H, Hy. Qed.
Lemma distinct_map_add c l : distinct l -> distinct (map (fun t => c + t) l).
Proof.
  induction 1 as [|x l H D IH]; cbn; [constructor|]. constructor; [|exact IH]. intros y Hy. apply in_map_iff in Hy. destruct Hy as (z & <- & Hz). intros E.
  apply (H z Hz). lra.
Qed.
Lemma distinct_perm l l' : Permutation l l' -> distinct l -> distinct l'.
Proof.
  induction 1 as [|x l l' P IH|x y l|l l' l'' P1 IH1 P2 IH2]; intros D.
  - constructor.
  - inversion D as [|? ? H1 H2]; subst. constructor; [|apply IH; exact H2]. intros z Hz. apply H1. eapply Permutation_in; [apply Permutation_sym; exact P|exact Hz].
  - inversion D as [|? ? H1 H2]; subst. inversion H2 as [|? ? H3 H4]; subst. constructor.
    + intros z [<-|Hz]; [intros E; apply (H1 x); [left; reflexivity|lra]|apply H3; exact Hz].
    + constructor; [|exact H4]. intros z Hz. apply H1. right. exact Hz.
  - auto.
Qed.
Lemma stops_sorted l : distinct l -> StronglySorted Qlt (sort_key (fun x => [x]) l).
Proof.
  intros D. pose proof (distinct_perm _ _ (py_sort_perm (fun a b : Q => lex_le [a] [b]) l) D) as D'. unfold sort_key in *.
  pose proof (py_sort_sorted (fun a b : Q => lex_le [a] [b]) (fun a b => lex_le_total [a] [b]) (fun a b c => lex_le_trans [a] [b] [c]) l) as S.
  clear D. induction S as [|a t St IH Ha]; [constructor|]. inversion D' as [|? ? H1 H2]; subst. constructor; [apply IH; exact H2|].
  rewrite Forall_forall in *. intros z Hz. specialize (Ha z Hz). cbn in Ha. destruct (qeq_spec a z) as [E|E]; [exfalso; apply (H1 z Hz); lra|]. apply qlt_iff in Ha. exact Ha.
Qed.
Lemma para_stops_In p s : pa_align p = A_LEFT -> (In s (para_stops p) <-> exists t, In t (pa_tabs p) /\ s = pa_left p + t).
Proof.
  intros E. unfold para_stops. rewrite E. unfold sort_key. rewrite py_sort_In, in_map_iff. split; intros (t & A & B); exists t; auto.
Qed.
(** The tabs written reach the largest stop at most one point right of the target. *)
Lemma tabs_land pos : forall stops cur, StronglySorted Qlt stops -> (forall s, In s stops -> ~ s == cur) ->
  exists q, lands stops cur (count_tabs stops pos cur) q /\
    ((q == cur /\ forall s, In s stops -> cur < s -> pos + 1 < s) \/
     (In q stops /\ cur < q /\ q <= pos + 1 /\ forall s, In s stops -> s <= pos + 1 -> s <= q)).
Proof.
  assert (G : forall k base stops cur, StronglySorted Qlt (base ++ stops) -> (forall s, In s base -> s <= cur) -> (forall s, In s stops -> cur < s) ->
     count_tabs stops pos cur = k ->
     exists q, lands (base ++ stops) cur k q /\
      ((q == cur /\ forall s, In s stops -> pos + 1 < s) \/ (In q stops /\ q <= pos + 1 /\ forall s, In s stops -> s <= pos + 1 -> s <= q))).
  { assert (M : forall t c c' s, StronglySorted Qlt (s :: t) -> c < s -> c' == s -> count_tabs t pos c = count_tabs t pos c').
    { induction t as [|y t IH]; intros c c' s St Hc Ec; [reflexivity|]. inversion St as [|? ? S1 S2]; subst. inversion S1 as [|? ? S3 S4]; subst. rewrite Forall_forall in S2, S4.
      pose proof (S2 y (or_introl eq_refl)). cbn [count_tabs]. destruct (qlt_spec y c), (qlt_spec y c'); try lra.
      destruct (qlt y pos || qle (qabs (y - pos)) MINOR_DIST); [|reflexivity]. f_equal. apply (IH c c' s); [|exact Hc|exact Ec].
      constructor; [exact S3|]. apply Forall_forall. intros z Hz. specialize (S4 z Hz). lra. }
    intros k base stops. revert k base. induction stops as [|s t IH]; intros k base cur St Hb Hs Ek.
    - cbn in Ek. subst k. exists cur. split; [constructor|]. left. split; [reflexivity|intros s []].
    - cbn [count_tabs] in Ek. pose proof (Hs s (or_introl eq_refl)) as Hc. destruct (qlt_spec s cur); [lra|].
      assert (Sst : StronglySorted Qlt (s :: t)).
      { clear - St. induction base as [|b base IH]; [exact St|]. cbn in St. inversion St; subst. apply IH. assumption. }
      pose proof Sst as Sst'. inversion Sst' as [|? ? S1 S2]; subst. rewrite Forall_forall in S2.
      assert (Near : qlt s pos || qle (qabs (s - pos)) MINOR_DIST = true <-> s <= pos + 1).
      { rewrite orb_true_iff, qlt_iff, qle_iff, qabs_Qabs', Qabs_le. unfold MINOR_DIST. lra. }
      destruct (qlt s pos || qle (qabs (s - pos)) MINOR_DIST) eqn:En.
      + assert (Ls : s <= pos + 1) by (apply Near; reflexivity).
        destruct (IH (count_tabs t pos cur) (base ++ [s]) s) as (q & L & R).
        * rewrite <- app_assoc. exact St.
        * intros z Hz. apply in_app_or in Hz. destruct Hz as [Hz|[<-|[]]]; [|apply Qle_refl]. specialize (Hb z Hz). lra.
        * intros z Hz. apply S2. exact Hz.
        * symmetry. apply (M t cur s s Sst Hc). reflexivity.
        * rewrite <- app_assoc in L. cbn [app] in L. exists q. split.
          -- apply lands_tab with s; [apply in_or_app; right; left; reflexivity|exact Hc| |exact L].
             intros z Hz Hcz. apply in_app_or in Hz. destruct Hz as [Hz|[<-|Hz]]; [specialize (Hb z Hz); lra|apply Qle_refl|]. specialize (S2 z Hz). lra.
          -- right. destruct R as [(E & R)|(I & R1 & R2)].
             ++ assert (Eq : q = s \/ q == s) by (right; exact E).
                assert (Iq : q = s) by (clear - L E S2 St; inversion L as [c Hc Hk|c s0 k0 q0 I0 L0 M0 R0]; subst; [reflexivity|exfalso;
                  assert (forall st c k q, lands st c k q -> c <= q) as Mono by (induction 1; [apply Qle_refl|lra]); specialize (Mono _ _ _ _ R0); lra]).
                rewrite Iq. split; [left; reflexivity|]. split; [exact Ls|]. intros z [<-|Hz] Hzp; [apply Qle_refl|]. specialize (R z Hz). lra.
             ++ split; [right; exact I|]. split; [exact R1|]. intros z [<-|Hz] Hzp; [specialize (S2 q I); lra|apply R2; assumption].
      + exists cur. split; [constructor|]. left. split; [reflexivity|]. intros z Hz.
        assert (Far : ~ s <= pos + 1) by (intros X; apply Near in X; discriminate).
        destruct Hz as [<-|Hz]; [lra|]. specialize (S2 z Hz). lra. }
  intros stops cur St Ne.
  assert (Sp : exists base rest, stops = base ++ rest /\ (forall s, In s base -> s < cur) /\ (forall s, In s rest -> cur < s) /\ count_tabs stops pos cur = count_tabs rest pos cur).
  { clear G. induction stops as [|s t IH]; [exists [], []; repeat split; intros s []|]. inversion St as [|? ? S1 S2]; subst. rewrite Forall_forall in S2.
    destruct (qlt_spec s cur) as [L|Ge].
    - destruct (IH S1 (fun x Hx => Ne x (or_intror Hx))) as (base & rest & E & A & B & C). exists (s :: base), rest. rewrite E at 1. split; [reflexivity|].
      split; [intros x [<-|Hx]; [exact L|apply A; exact Hx]|]. split; [exact B|]. cbn [count_tabs]. destruct (qlt_spec s cur); [exact C|lra].
    - exists [], (s :: t). split; [reflexivity|]. split; [intros x []|]. split; [|reflexivity]. pose proof (Ne s (or_introl eq_refl)).
      assert (cur < s) by (destruct (Qlt_le_dec cur s); [assumption|exfalso; lra]). intros x [<-|Hx]; [assumption|]. specialize (S2 x Hx). lra. }
  destruct Sp as (base & rest & E & A & B & C).
  destruct (G (count_tabs rest pos cur) base rest cur) as (q & L & R).
  - rewrite <- E. exact St.
  - intros s Hs. specialize (A s Hs). lra.
  - exact B.
  - reflexivity.
  - rewrite <- E, <- C in L. exists q. split; [exact L|]. destruct R as [(Eq & R)|(I & R1 & R2)].
    + left. split; [exact Eq|]. intros s Hs Hc. rewrite E in Hs. apply in_app_or in Hs. destruct Hs as [Hs|Hs]; [specialize (A s Hs); lra|apply R; exact Hs].
    + right. split; [rewrite E; apply in_or_app; right; exact I|]. split; [apply B; exact I|]. split; [exact R1|].
      intros s Hs Hp. rewrite E in Hs. apply in_app_or in Hs. destruct Hs as [Hs|Hs]; [specialize (A s Hs); specialize (B q I); lra|apply R2; assumption].
Qed.

(* ------------------------------------------------------------------ *)
(** * Shape of the result *)
Lemma internal_undecided h th rows : (forall r, In r rows -> r <> []) -> undecided h th rows -> internal_alignment h th rows = (A_NONE, None).
Proof.
  intros N U. destruct (internal_cases h th rows N) as (G & _ & C). destruct U as [U|(L & U1 & U2 & U3)]; [apply G; exact U|].
  pose proof (has_gap_spec h (th_sep th) rows) as Sp. destruct (existsb (wide_gap h (th_sep th)) rows) eqn:Eg; [apply G, Sp; reflexivity|].
  apply C; [intros X; apply Sp in X; discriminate|exact L|auto].
Qed.
Lemma internal_left h th rows : (forall r, In r rows -> r <> []) -> left_aligned h th rows ->
  internal_alignment h th rows = (A_LEFT, Some (row_first h (nth 0 rows []) - row_first h (nth 1 rows []))).
Proof. intros N (G & L & A & B). destruct (internal_cases h th rows N) as (_ & _ & C). apply C; auto. Qed.
Lemma spacing_undecided h bb c th ls rows p0 : internal_alignment h th rows = (A_NONE, None) ->
  let lt := qmax (round1 (side_left h bb c)) 0 in let rt := qmax (round1 (side_right h bb c)) 0 in
  horizontal_spacing h bb c th ls rows p0 = mkPara A_LEFT lt (qmin lt rt) (pa_first p0) lt rt (tab_positions h bb ls).
Proof.
  intros E. cbv zeta. unfold horizontal_spacing. rewrite E. pose proof (totals h bb c (th_center th)) as T.
  destruct (external_alignment h bb c (th_center th)) as [[e lt] rt]. destruct T as (-> & ->). reflexivity.
Qed.
Lemma spacing_left h bb c th ls rows p0 f : internal_alignment h th rows = (A_LEFT, Some f) ->
  let lt := qmax (round1 (side_left h bb c)) 0 in let rt := qmax (round1 (side_right h bb c)) 0 in
  horizontal_spacing h bb c th ls rows p0 = mkPara A_LEFT lt (qmin lt rt) f lt rt (pa_tabs p0).
Proof.
  intros E. cbv zeta. unfold horizontal_spacing. rewrite E. pose proof (totals h bb c (th_center th)) as T.
  destruct (external_alignment h bb c (th_center th)) as [[e lt] rt]. destruct T as (-> & ->). reflexivity.
Qed.
Lemma spaces h bb c th ls rows p0 : let p := horizontal_spacing h bb c th ls rows p0 in
  let lt := qmax (round1 (side_left h bb c)) 0 in let rt := qmax (round1 (side_right h bb c)) 0 in
  pa_left_total p = lt /\ pa_right_total p = rt /\
  match pa_align p with
  | A_LEFT => pa_left p = lt /\ pa_right p = qmin lt rt
  | A_RIGHT => pa_left p = qmin lt rt /\ pa_right p = rt
  | A_CENTER => pa_left p = 0 /\ pa_right p = 0
  | _ => pa_left p = lt /\ pa_right p = rt
  end.
Proof.
  cbv zeta. unfold horizontal_spacing. destruct (internal_alignment h th rows) as [ia f]. pose proof (totals h bb c (th_center th)) as T.
  destruct (external_alignment h bb c (th_center th)) as [[e lt] rt]. destruct T as (-> & ->).
  destruct ia; cbn; auto. destruct e; cbn; auto.
Qed.
Lemma tabs_spec h bb ls t : In t (tab_positions h bb ls) -> 1 <= t /\ exists l, In l ls /\ t = round1 (line_offset h bb l).
Proof.
  intros H. apply filter_In in H. destruct H as (H & G). apply qle_iff in G. split; [exact G|]. apply dedup_incl, in_map_iff in H.
  destruct H as (l & E & Hl). exists l. split; [exact Hl|]. rewrite <- E. apply round1_comp, offset_eq.
Qed.
Lemma tabs_complete h bb ls l : In l ls -> 1 <= round1 (line_offset h bb l) -> exists t, In t (tab_positions h bb ls) /\ t == round1 (line_offset h bb l).
Proof.
  intros Hl H. destruct (proj2 (dedup_In (round1 (line_offset h bb l)) (map (fun l => round1 ((lstart h l - startp h bb) * dirf h)) ls))) as (y & Hy & Ey).
  - exists (round1 (line_offset h bb l)). split; [|reflexivity]. apply in_map_iff. exists l. split; [apply round1_comp, offset_eq|exact Hl].
  - exists y. split; [|exact Ey]. apply filter_In. split; [exact Hy|]. apply qle_iff. unfold MINOR_DIST. lra.
Qed.
Lemma tabs_distinct h bb ls : distinct (tab_positions h bb ls).
Proof. apply distinct_filter, dedup_distinct. Qed.

(* ------------------------------------------------------------------ *)
(** * Paragraph content *)
Definition tab_count (h : bool) (bb : rect) (p : para) (cur : Q) (l : line) : nat :=
  let pos := pa_left p + (lstart h l - startp h bb) in
  if qlt (pa_left p) pos && negb (match pa_tabs p with [] => true | _ => false end) then add_stop (para_stops p) pos cur else O.
Lemma write_assemble h bb p : forall ls breaks cur, length breaks = length ls ->
  exists ks, length ks = length ls /\ write_lines h bb p cur ls breaks = assemble ks ls breaks /\
    (forall l, nth_error ls 0 = Some l -> nth_error ks 0 = Some (tab_count h bb p cur l)) /\
    (forall i a b, nth_error ls i = Some a -> nth_error ls (S i) = Some b -> same_row a b = false ->
       nth_error ks (S i) = Some (tab_count h bb p (pa_left p) b)) /\
    (pa_tabs p = [] -> forall k, In k ks -> k = O).
Proof.
  induction ls as [|l t IH]; intros breaks cur Lb.
  - destruct breaks; [|discriminate]. exists []. split; [reflexivity|]. split; [reflexivity|]. split; [discriminate|]. split; [intros [|i] a b; discriminate|intros _ k []].
  - destruct breaks as [|b bs]; [discriminate|]. injection Lb as Lb. cbn [write_lines].
    set (pos := pa_left p + (lstart h l - startp h bb)).
    set (cur' := match t with n :: _ => if same_row l n then pos + qabs (lend h l - startp h bb) else pa_left p | [] => cur end).
    destruct (IH bs cur' Lb) as (ks & L & E & F & G & Z). exists (tab_count h bb p cur l :: ks). split; [cbn; f_equal; exact L|]. split.
    { cbn [assemble]. rewrite E. unfold tab_count. fold pos. destruct (qlt (pa_left p) pos && _); reflexivity. }
    split; [intros x Hx; injection Hx as <-; reflexivity|]. split.
    { intros [|i] x y Hx Hy Hr.
      - injection Hx as <-. cbn [nth_error] in *. destruct t as [|n t']; [discriminate|]. injection Hy as <-. rewrite (F n eq_refl). unfold cur'. rewrite Hr. reflexivity.
      - cbn [nth_error] in *. apply (G i x y Hx Hy Hr). }
    { intros Et k [<-|Hk]; [unfold tab_count; rewrite Et; destruct (qlt _ _); reflexivity|apply (Z Et k Hk)]. }
Qed.
Lemma starts_tab h bb p ls ks : length ks = length ls ->
  (forall l, nth_error ls 0 = Some l -> nth_error ks 0 = Some (tab_count h bb p (pa_left p) l)) ->
  (forall i a b, nth_error ls i = Some a -> nth_error ls (S i) = Some b -> same_row a b = false ->
       nth_error ks (S i) = Some (tab_count h bb p (pa_left p) b)) ->
  forall i l, nth_error ls i = Some l -> starts_row ls i -> nth_error ks i = Some (tab_count h bb p (pa_left p) l).
Proof.
  intros L F G i l Hl [->|(j & a & b & -> & Ha & Hb & R)]; [apply F; exact Hl|]. assert (b = l) by congruence. subst b. apply (G j a l); assumption.
Qed.
Lemma round1_ge1 x : 1 <= x -> 1 <= round1 x.
Proof. intros H. pose proof (round_p_mono 10 1 x H) as M. unfold round1. assert (E : round_p 10 1 == 1) by reflexivity. lra. Qed.
Lemma item_spans_app a b : item_spans (a ++ b) = item_spans a ++ item_spans b.
Proof. unfold item_spans. apply flat_map_app. Qed.
Lemma assemble_spans : forall ls ks breaks, length ks = length ls -> length breaks = length ls -> item_spans (assemble ks ls breaks) = flat_map ln_spans ls.
Proof.
  induction ls as [|l t IH]; intros [|k ks] [|b bs] L1 L2; try discriminate; [reflexivity|]. cbn [assemble flat_map]. rewrite !item_spans_app, IH by (injection L1; injection L2; auto).
  assert (E1 : item_spans (repeat ITab k) = []) by (clear; induction k; [reflexivity|exact IHk]).
  assert (E2 : item_spans (map ISpan (ln_spans l)) = ln_spans l) by (induction (ln_spans l) as [|s q IHq]; [reflexivity|cbn; f_equal; exact IHq]).
  rewrite E1, E2. destruct b; reflexivity.
Qed.

(* ------------------------------------------------------------------ *)
(** * Line breaks *)
Lemma breaks_length h bb p free : forall ls bs, line_breaks h bb p free ls = Some bs -> length bs = length ls.
Proof.
  induction ls as [|l t IH]; intros bs E; [injection E as <-; reflexivity|]. destruct t as [|n t]; [injection E as <-; reflexivity|].
  change (line_breaks h bb p free (l :: n :: t)) with (match line_breaks h bb p free (n :: t) with None => None | Some bs =>
    if same_row l n then Some (false :: bs) else if qeq (endp h bb - startp h bb) 0 then None
    else if qlt free (free_ratio h bb p l) then Some (true :: bs) else Some (line_blank n :: bs) end) in E.
  destruct (line_breaks h bb p free (n :: t)) as [bs'|]; [|discriminate]. specialize (IH _ eq_refl).
  destruct (same_row l n); [injection E as <-; cbn in *; f_equal; exact IH|]. destruct (qeq _ _); [discriminate|].
  destruct (qlt _ _); injection E as <-; cbn in *; f_equal; exact IH.
Qed.
Lemma breaks_spec h bb p free : forall ls bs, line_breaks h bb p free ls = Some bs ->
  (forall i, (S i = length ls) -> nth_error bs i = Some false) /\
  forall i a b, nth_error ls i = Some a -> nth_error ls (S i) = Some b ->
    nth_error bs i = Some (negb (same_row a b) && (qlt free (free_ratio h bb p a) || line_blank b)).
Proof.
  induction ls as [|l t IH]; intros bs E; [split; [intros; discriminate|intros [|i] a b; discriminate]|]. destruct t as [|n t].
  { injection E as <-. split; [intros [|i] H; [reflexivity|discriminate]|intros [|[|i]] a b Ha Hb; discriminate]. }
  change (line_breaks h bb p free (l :: n :: t)) with (match line_breaks h bb p free (n :: t) with None => None | Some bs =>
    if same_row l n then Some (false :: bs) else if qeq (endp h bb - startp h bb) 0 then None
    else if qlt free (free_ratio h bb p l) then Some (true :: bs) else Some (line_blank n :: bs) end) in E.
  destruct (line_breaks h bb p free (n :: t)) as [bs'|] eqn:E'; [|discriminate]. destruct (IH _ eq_refl) as (A & B). 
  assert (exists b, bs = b :: bs' /\ b = negb (same_row l n) && (qlt free (free_ratio h bb p l) || line_blank n)) as (b & -> & Eb).
  { destruct (same_row l n); [injection E as <-; eexists; split; reflexivity|]. destruct (qeq _ _); [discriminate|]. destruct (qlt _ _); injection E as <-; eexists; split; reflexivity. }
  split.
  - intros [|i] H; [discriminate|]. cbn [nth_error]. apply A. cbn in *. lia.
  - intros [|i] x y Hx Hy.
    + injection Hx as <-. injection Hy as <-. cbn [nth_error]. f_equal. exact Eb.
    + cbn [nth_error]. apply B; assumption.
Qed.
Lemma breaks_defined h bb p free ls : ~ endp h bb == startp h bb -> exists bs, line_breaks h bb p free ls = Some bs.
Proof.
  intros N. induction ls as [|l t (bs & E)]; [exists []; reflexivity|]. destruct t as [|n t]; [exists [false]; reflexivity|].
  change (line_breaks h bb p free (l :: n :: t)) with (match line_breaks h bb p free (n :: t) with None => None | Some bs =>
    if same_row l n then Some (false :: bs) else if qeq (endp h bb - startp h bb) 0 then None
    else if qlt free (free_ratio h bb p l) then Some (true :: bs) else Some (line_blank n :: bs) end).
  rewrite E. destruct (same_row l n); [eexists; reflexivity|]. destruct (qeq_spec (endp h bb - startp h bb) 0) as [X|X]; [exfalso; apply N; lra|].
  destruct (qlt _ _); eexists; reflexivity.
Qed.

(* ------------------------------------------------------------------ *)
(** * Vertical spacing *)
Lemma count_rows_spec : forall ls l, row_count (l :: ls) (count_rows None (l :: ls)).
Proof.
  assert (G : forall ls l, row_count (l :: ls) (S (count_rows (Some l) ls))).
  { induction ls as [|b t IH]; intros l; [constructor|]. cbn [count_rows]. destruct (same_row b l) eqn:E; cbn [Nat.add]; [apply rc_same|apply rc_next]; auto. }
  intros ls l. cbn [count_rows]. apply G.
Qed.
Lemma row_count_fun ls n : row_count ls n -> forall m, row_count ls m -> n = m.
Proof.
  induction 1 as [l|a b t n E H IH|a b t n E H IH]; intros m Hm; inversion Hm; subst; try congruence; auto.
Qed.
Lemma row_count_pos ls n : row_count ls n -> (1 <= n)%nat.
Proof. induction 1; lia. Qed.
Lemma qnat_pos n : (1 <= n)%nat -> 1 <= qnat n.
Proof. intros H. unfold qnat. change 1 with (inject_Z 1). rewrite <- Zle_Qle. lia. Qed.
Lemma qnat_gt n : (1 < n)%nat -> 2 <= qnat n.
Proof. intros H. unfold qnat. change 2 with (inject_Z 2). rewrite <- Zle_Qle. lia. Qed.
