(** Paragraph properties: C26 (alignment and spaces), C27 (line spacing), C50 (horizontal
    position in Word), C51 (content), C52 (tabs), C53 (run font). *)
From Verif Require Import GeomModel GeomSpec GeomProof GraphModel GraphSpec GraphProof TextModel ParaModel ParaSpec ParaProof.
From Coq Require Import Lia Permutation Lqa Sorted.
Open Scope Q_scope.

(* ------------------------------------------------------------------ *)
(** * C26 *)
(** Parsing never fails and always decides the alignment. *)
Theorem C26_decided order bb container th ls p0 : (forall l, Permutation l (order l)) ->
  exists p, parse_horizontal order bb container th ls p0 = Some p /\ In (pa_align p) [A_LEFT; A_RIGHT; A_CENTER; A_JUSTIFY].
Proof.
  intros Ho. destruct (rows_exist order ls Ho) as (rows & E & _). unfold parse_horizontal. rewrite E. eexists. split; [reflexivity|].
  pose proof (decided (is_horizontal (block_dir ls)) bb container th ls rows p0) as D. destruct (pa_align _); try destruct D; cbn; auto.
Qed.
Print Assumptions C26_decided.
(** The spaces kept by the block are the distances to the container, rounded to one
    decimal and never negative; the indents are at most these. *)
Theorem C26_spaces order bb container th ls p0 p : parse_horizontal order bb container th ls p0 = Some p ->
  let h := is_horizontal (block_dir ls) in
  (0 <= side_left h bb container -> Qabs (pa_left_total p - side_left h bb container) <= 1 # 20) /\
  (0 <= side_right h bb container -> Qabs (pa_right_total p - side_right h bb container) <= 1 # 20) /\
  (side_left h bb container <= 0 -> pa_left_total p == 0) /\ (side_right h bb container <= 0 -> pa_right_total p == 0) /\
  0 <= pa_left p <= pa_left_total p /\ 0 <= pa_right p <= pa_right_total p /\
  (pa_align p = A_LEFT -> pa_left p = pa_left_total p) /\ (pa_align p = A_RIGHT -> pa_right p = pa_right_total p) /\
  (pa_align p = A_CENTER -> pa_left p = pa_right p) /\
  (pa_align p = A_JUSTIFY -> pa_left p = pa_left_total p /\ pa_right p = pa_right_total p).
Proof.
  unfold parse_horizontal. destruct (group same_row order ls) as [rows|]; [|discriminate]. intros E. injection E as <-. cbv zeta.
  set (h := is_horizontal (block_dir ls)). destruct (spaces h bb container th ls rows p0) as (-> & -> & S).
  set (p := horizontal_spacing h bb container th ls rows p0) in *.
  pose proof (clip_bound (side_left h bb container)) as B1. pose proof (clip_bound (side_right h bb container)) as B2.
  split; [intros G; destruct (qlt_spec (side_left h bb container) 0); [lra|exact B1]|].
  split; [intros G; destruct (qlt_spec (side_right h bb container) 0); [lra|exact B2]|].
  assert (Z : forall x, x <= 0 -> qmax (round1 x) 0 == 0).
  { intros x Hx. pose proof (round_p_mono 10 x 0 Hx) as M. fold (round1 x) in M. assert (R0 : round_p 10 0 == 0) by reflexivity.
    destruct (qmax_cases' (round1 x) 0) as [(Eq & H)|(Eq & H)]; rewrite Eq; lra. }
  split; [apply Z|]. split; [apply Z|].
  set (lt := qmax (round1 (side_left h bb container)) 0) in *. set (rt := qmax (round1 (side_right h bb container)) 0) in *.
  assert (0 <= lt) by apply qmax_r. assert (0 <= rt) by apply qmax_r.
  pose proof (qmin_l lt rt) as M1. pose proof (qmin_r lt rt) as M2.
  assert (0 <= qmin lt rt) by (destruct (qmin_case lt rt) as [X|X]; rewrite X; assumption).
  destruct (pa_align p) eqn:Ea; destruct S as (-> & ->); repeat split; intros; try discriminate; try reflexivity; try lra.
Qed.
Print Assumptions C26_spaces.
(** The alignment follows from the rows of the block: their gaps, edges and middles; if
    they tell nothing, from the distances to the container. *)
Theorem C26_rules order bb container th ls p0 rows p : (forall l, Permutation l (order l)) ->
  group same_row order ls = Some rows -> parse_horizontal order bb container th ls p0 = Some p ->
  let h := is_horizontal (block_dir ls) in
  let gaps := has_gap h (th_sep th) rows in
  let l := lefts_within h (th_left th) (left_rows rows) in
  let r := rights_within h (th_right th) (right_rows rows) in
  let c := middles_within h (th_center th) rows in
  (gaps -> pa_align p = A_LEFT) /\
  (~ gaps -> (length rows < 2)%nat -> sides_align h bb container (th_center th) (pa_align p)) /\
  (~ gaps -> (2 <= length rows)%nat ->
     (l -> r -> (3 <= length rows)%nat -> pa_align p = A_JUSTIFY) /\
     (l -> r -> (length rows = 2)%nat -> sides_align h bb container (th_center th) (pa_align p)) /\
     (l -> ~ r -> pa_align p = A_LEFT /\ forall r0 r1 rest a b, rows = r0 :: r1 :: rest -> first_line r0 a -> first_line r1 b ->
                    pa_first p == left_edge h a - left_edge h b) /\
     (~ l -> r -> pa_align p = A_RIGHT) /\
     (~ l -> ~ r -> c -> pa_align p = A_CENTER) /\
     (~ l -> ~ r -> ~ c -> pa_align p = A_LEFT)).
Proof.
  intros Ho Hg E. unfold parse_horizontal in E. rewrite Hg in E. injection E as <-. cbv zeta. set (h := is_horizontal (block_dir ls)).
  destruct (rows_exist order ls Ho) as (rows' & E' & _ & N & _). rewrite Hg in E'. injection E' as <-.
  destruct (internal_cases h th rows N) as (I1 & I2 & I3).
  assert (Ext : internal_alignment h th rows = (A_UNKNOWN, None) -> sides_align h bb container (th_center th) (pa_align (horizontal_spacing h bb container th ls rows p0))).
  { intros X. unfold horizontal_spacing. rewrite X. unfold external_alignment. cbv zeta.
    rewrite (round1_comp _ _ (side_left_eq h bb container)), (round1_comp _ _ (side_right_eq h bb container)). unfold sides_align.
    set (sl := round1 (side_left h bb container)). set (sr := round1 (side_right h bb container)). set (d := round1 ((sl - sr) / 2)).
    destruct (qlt_spec (qabs d) (th_center th)) as [A|A]; rewrite qabs_Qabs' in A; [left; split; [exact A|reflexivity]|]. right.
    assert (A' : th_center th <= Qabs d) by lra.
    destruct (qle_spec (qabs (qmax sl 0)) (qabs (qmax sr 0))) as [B|B].
    - left. split; [exact A'|]. split; [|reflexivity]. rewrite !qabs_Qabs' in B. pose proof (qmax_r sl 0). pose proof (qmax_r sr 0). rewrite !Qabs_pos in B by assumption.
      destruct (qmax_cases' sl 0) as [(X1 & X2)|(X1 & X2)], (qmax_cases' sr 0) as [(Y1 & Y2)|(Y1 & Y2)]; rewrite ?X1, ?Y1 in B; [left; lra|right; lra|right; lra|right; lra].
    - right. split; [exact A'|]. rewrite !qabs_Qabs' in B. pose proof (qmax_r sl 0). pose proof (qmax_r sr 0). rewrite !Qabs_pos in B by assumption.
      assert (G : sr < sl /\ 0 < sl); [|destruct G; auto].
      destruct (qmax_cases' sl 0) as [(X1 & X2)|(X1 & X2)], (qmax_cases' sr 0) as [(Y1 & Y2)|(Y1 & Y2)]; rewrite ?X1, ?Y1 in B; lra. }
  assert (Int : forall a f, internal_alignment h th rows = (a, f) -> a <> A_NONE -> a <> A_UNKNOWN -> pa_align (horizontal_spacing h bb container th ls rows p0) = a).
  { intros a f X Na Nu. unfold horizontal_spacing. rewrite X. destruct (external_alignment h bb container (th_center th)) as [[e lt] rt]. destruct a; try congruence; reflexivity. }
  assert (Non : internal_alignment h th rows = (A_NONE, None) -> pa_align (horizontal_spacing h bb container th ls rows p0) = A_LEFT).
  { intros X. pose proof (spacing_undecided h bb container th ls rows p0 X) as Y. cbv zeta in Y. rewrite Y. reflexivity. }
  split; [intros G; apply Non, I1, G|]. split; [intros G L; apply Ext, I2; assumption|]. intros G L. specialize (I3 G L). destruct I3 as (J1 & J2 & J3 & J4 & J5).
  split; [|split; [|split; [|split; [|split]]]].
  - intros A B T. apply (Int A_JUSTIFY None); try discriminate. rewrite J1 by auto. destruct (Nat.leb_spec 3 (length rows)); [reflexivity|lia].
  - intros A B T. apply Ext. rewrite J1 by auto. rewrite T. reflexivity.
  - intros A B. specialize (J2 (conj A B)). split; [apply (Int _ _ J2); discriminate|]. intros r0 r1 rest a b Er (t1 & E1) (t2 & E2).
    pose proof (spacing_left h bb container th ls rows p0 _ J2) as Y. cbv zeta in Y. rewrite Y. cbn [pa_first]. rewrite Er, E1, E2. reflexivity.
  - intros A B. apply (Int _ _ (J3 (conj A B))); discriminate.
  - intros A B C. apply (Int _ _ (J4 (conj A (conj B C)))); discriminate.
  - intros A B C. apply Non, J5. auto.
Qed.
Print Assumptions C26_rules.
(** Tab stops: used exactly when the rows have no common alignment; one for every line
    starting at least one point right of the block, none without such a line. *)
Theorem C26_tabs order bb container th ls rows p : (forall l, Permutation l (order l)) ->
  group same_row order ls = Some rows -> parse_horizontal order bb container th ls fresh_para = Some p ->
  let h := is_horizontal (block_dir ls) in
  (~ undecided h th rows -> pa_tabs p = []) /\
  (undecided h th rows -> pa_align p = A_LEFT /\ pa_first p = 0 /\
     (forall t, In t (pa_tabs p) -> 1 <= t /\ exists l, In l ls /\ Qabs (t - line_offset h bb l) <= 1 # 20) /\
     (forall l, In l ls -> 1 <= line_offset h bb l -> exists t, In t (pa_tabs p) /\ Qabs (t - line_offset h bb l) <= 1 # 20)).
Proof.
  intros Ho Hg E. unfold parse_horizontal in E. rewrite Hg in E. injection E as <-. cbv zeta. set (h := is_horizontal (block_dir ls)).
  destruct (rows_exist order ls Ho) as (rows' & E' & _ & N & _). rewrite Hg in E'. injection E' as <-. split.
  - intros U. unfold horizontal_spacing. destruct (internal_alignment h th rows) as [ia f] eqn:Ei.
    assert (ia <> A_NONE).
    { intros ->. apply U. unfold undecided. destruct (internal_cases h th rows N) as (_ & I2 & I3). pose proof (has_gap_spec h (th_sep th) rows) as G.
      destruct (existsb (wide_gap h (th_sep th)) rows) eqn:Eg; [left; apply G; reflexivity|right].
      assert (G' : ~ has_gap h (th_sep th) rows) by (intros X; apply G in X; discriminate).
      destruct (Nat.ltb_spec (length rows) 2) as [L|L]; [specialize (I2 G' L); congruence|]. split; [exact L|].
      destruct (I3 G' L) as (J1 & J2 & J3 & J4 & J5).
      assert (D : forall P : Prop, (P -> False) -> ~ P) by auto.
      assert (Nl : ~ lefts_within h (th_left th) (left_rows rows)).
      { intros A. assert (B : ~ rights_within h (th_right th) (right_rows rows)).
        { intros B. specialize (J1 (conj A B)). rewrite Ei in J1. destruct (3 <=? length rows)%nat; discriminate. }
        specialize (J2 (conj A B)). congruence. }
      assert (Nr : ~ rights_within h (th_right th) (right_rows rows)) by (intros B; specialize (J3 (conj Nl B)); congruence).
      split; [exact Nl|]. split; [exact Nr|]. intros C. specialize (J4 (conj Nl (conj Nr C))). congruence. }
    destruct (external_alignment h bb container (th_center th)) as [[e lt] rt] eqn:Ee. destruct ia; try congruence; try reflexivity.
    unfold external_alignment in Ee. cbv zeta in Ee. injection Ee as Ee _ _. destruct e; try reflexivity. exfalso. destruct (qlt _ _); [discriminate|]. destruct (qle _ _); discriminate.
  - intros U. pose proof (spacing_undecided h bb container th ls rows fresh_para (internal_undecided h th rows N U)) as Y. cbv zeta in Y. rewrite Y. cbn [pa_align pa_first pa_tabs fresh_para].
    split; [reflexivity|]. split; [reflexivity|]. split.
    + intros t Ht. destruct (tabs_spec h bb ls t Ht) as (A & l & Hl & ->). split; [exact A|]. exists l. split; [exact Hl|]. apply Qabs_le. apply round1_bound.
    + intros l Hl Hx. destruct (tabs_complete h bb ls l Hl (round1_ge1 _ Hx)) as (t & Ht & Et). exists t. split; [exact Ht|]. rewrite Et. apply Qabs_le. apply round1_bound.
Qed.
Print Assumptions C26_tabs.

(** Sample paragraphs: text lines without spans, one direction. *)
Definition tline (x0 y0 x1 y1 : Q) : line := mkLine (mkRect x0 y0 x1 y1) LEFT_RIGHT [] None false.
Definition vline (x0 y0 x1 y1 : Q) : line := mkLine (mkRect x0 y0 x1 y1) BOTTOM_TOP [] None false.
Definition th0 : thresholds := mkThr 5 (1 # 10) 1 1 2.
Definition idorder (l : list nat) : list nat := l.
(** Refuted: "the indents handed to Word are not negative": a first-line indent larger
    than the left space gives a negative left indent. *)
Theorem C26_negative_indent_refuted : exists bb container th ls p, 0 <= side_left true bb container /\
  parse_horizontal idorder bb container th ls fresh_para = Some p /\ forall before after lsp bs, wp_left (make_paragraph bb p before after lsp ls bs) < 0.
Proof.
  exists (mkRect 10 0 100 40), (mkRect 10 0 110 100), th0, [tline 30 0 100 10; tline 10 15 95 25; tline 10 30 60 40].
  eexists. split; [vm_compute; discriminate|]. split; [vm_compute; reflexivity|]. intros. vm_compute. reflexivity.
Qed.
Print Assumptions C26_negative_indent_refuted.
(** Refuted: "the paragraph stays where it is": two or more rows sharing their middle are
    centred in the container wherever the block is. *)
Theorem C26_center_moves_refuted : exists bb container th ls p,
  parse_horizontal idorder bb container th ls fresh_para = Some p /\ pa_align p = A_CENTER /\
  pa_left p == pa_right p /\ 100 < Qabs ((rx0 bb + rx1 bb) / 2 - (rx0 container + rx1 container) / 2).
Proof.
  exists (mkRect 0 0 60 25), (mkRect 0 0 400 100), th0, [tline 0 0 60 10; tline 20 15 40 25].
  eexists. split; [vm_compute; reflexivity|]. split; [vm_compute; reflexivity|]. split; vm_compute; reflexivity.
Qed.
Print Assumptions C26_center_moves_refuted.
Example C26_ex : exists p, parse_horizontal idorder (mkRect 10 0 100 40) (mkRect 0 0 110 100) th0 [tline 20 0 100 10; tline 10 15 95 25; tline 10 30 60 40] fresh_para = Some p /\
  pa_align p = A_LEFT /\ pa_left p == 10 /\ pa_first p == 10.
Proof. eexists. split; [vm_compute; reflexivity|]. split; [vm_compute; reflexivity|]. split; vm_compute; reflexivity. Qed.
Example C26_tabs_ex : exists p rows, let ls := [tline 10 0 30 10; tline 60 0 100 10] in
  group same_row idorder ls = Some rows /\ undecided true th0 rows /\
  parse_horizontal idorder (mkRect 10 0 100 40) (mkRect 0 0 110 100) th0 ls fresh_para = Some p /\ pa_tabs p = [500 # 10].
Proof.
  eexists. eexists. cbv zeta. split; [vm_compute; reflexivity|]. split; [|split; [vm_compute; reflexivity|vm_compute; reflexivity]].
  left. eexists. exists [], (tline 10 0 30 10), (tline 60 0 100 10), []. split; [left; reflexivity|]. split; [reflexivity|]. vm_compute. discriminate.
Qed.

(* ------------------------------------------------------------------ *)
(** * C27 *)
(** Defined exactly for blocks with lines; conserves the vertical extent. *)
Theorem C27_total bb ls before : (ls = [] <-> line_spacing bb ls before = None) /\ (ls <> [] -> exists n, row_count ls n).
Proof.
  split; [split; [intros ->; reflexivity|]|].
  - destruct ls as [|l t]; [reflexivity|]. unfold line_spacing. cbv zeta. destruct (qlt _ 0); discriminate.
  - destruct ls as [|l t]; [congruence|]. intros _. eexists. apply count_rows_spec.
Qed.
Print Assumptions C27_total.
Theorem C27_extent bb l0 t before n b s : row_count (l0 :: t) n -> line_spacing bb (l0 :: t) before = Some (b, s) ->
  let h := is_horizontal (block_dir (l0 :: t)) in
  ((1 < n)%nat -> b + inject_Z (Z.of_nat n) * s == before + extent h bb) /\
  (n = 1%nat -> b + s == before + extent h (ln_bbox l0)) /\
  0 <= b /\ (0 < b -> b + s == before + extent h (ln_bbox l0)).
Proof.
  intros R E. cbv zeta. unfold line_spacing in E. rewrite (row_count_fun _ _ (count_rows_spec t l0) _ R) in E. cbv zeta in E.
  pose proof (row_count_pos _ _ R) as Np. pose proof (qnat_pos n Np) as Qp. fold (qnat n).
  set (h := is_horizontal (block_dir (l0 :: t))) in *. change (thickness h bb) with (hi h bb - lo h bb) in E.
  change (thickness h (ln_bbox l0)) with (hi h (ln_bbox l0) - lo h (ln_bbox l0)) in E.
  assert (X1 : hi h bb - lo h bb = extent h bb) by (unfold hi, lo, extent; destruct h; reflexivity).
  assert (X2 : hi h (ln_bbox l0) - lo h (ln_bbox l0) = extent h (ln_bbox l0)) by (unfold hi, lo, extent; destruct h; reflexivity).
  rewrite X1, X2 in E. set (H := extent h bb) in *. set (f := extent h (ln_bbox l0)) in *.
  set (sp := if (1 <? n)%nat then (H - f) / (qnat n - 1) else H) in *.
  assert (S1 : (1 < n)%nat -> (qnat n - 1) * sp == H - f).
  { intros L. unfold sp. destruct (Nat.ltb_spec 1 n); [|lia]. pose proof (qnat_gt n L). field. lra. }
  assert (S2 : n = 1%nat -> sp = H) by (intros ->; reflexivity).
  assert (D : b + qnat n * s == before + f - sp + qnat n * sp /\ 0 <= b /\ (0 < b -> b + s == before + f)).
  { destruct (qlt_spec (before + (f - sp)) 0) as [L|L]; injection E as <- <-.
    - split; [|split; [lra|lra]]. assert (Z : qnat n * (sp + (before + (f - sp)) / qnat n) == qnat n * sp + (before + (f - sp))) by (field; lra). rewrite Z. ring.
    - split; [ring|]. split; lra. }
  destruct D as (D1 & D2 & D3). split; [|split; [|split; assumption]].
  - intros L. specialize (S1 L). rewrite D1. lra.
  - intros ->. specialize (S2 eq_refl). assert (Q1 : qnat 1 == 1) by reflexivity. rewrite Q1 in D1. lra.
Qed.
Print Assumptions C27_extent.
(** With a block at least as high as its first line, no spacing is negative. *)
Theorem C27_nonnegative bb l0 t before b s : line_spacing bb (l0 :: t) before = Some (b, s) -> 0 <= before ->
  let h := is_horizontal (block_dir (l0 :: t)) in 0 <= extent h (ln_bbox l0) -> extent h (ln_bbox l0) <= extent h bb -> 0 <= s.
Proof.
  intros E B. cbv zeta. intros F H. destruct (C27_extent bb l0 t before _ b s (count_rows_spec t l0) E) as (A1 & A2 & A3 & A4).
  set (n := count_rows None (l0 :: t)) in *. pose proof (row_count_pos _ _ (count_rows_spec t l0)) as Np. fold n in Np. pose proof (qnat_pos n Np) as Qp. fold (qnat n) in A1.
  destruct (Nat.eq_dec n 1) as [N1|N1].
  - unfold line_spacing in E. fold n in E. cbv zeta in E. rewrite N1 in E. cbn [Nat.ltb Nat.leb] in E. change (thickness (is_horizontal (block_dir (l0 :: t))) bb) with (hi (is_horizontal (block_dir (l0 :: t))) bb - lo (is_horizontal (block_dir (l0 :: t))) bb) in E.
    specialize (A2 N1). destruct (qlt_spec 0 b) as [P|P].
    + assert (Es : s == extent (is_horizontal (block_dir (l0 :: t))) bb).
      { destruct (qlt _ 0); injection E as <- <-; [lra|]. unfold hi, lo, extent. destruct (is_horizontal _); reflexivity. }
      rewrite Es. lra.
    + lra.
  - specialize (A1 ltac:(lia)). destruct (qlt_spec 0 b) as [P|P].
    + specialize (A4 P). pose proof (qnat_gt n ltac:(lia)) as Q2.
      assert (Y : (qnat n - 1) * s == extent (is_horizontal (block_dir (l0 :: t))) bb - extent (is_horizontal (block_dir (l0 :: t))) (ln_bbox l0)) by lra.
      destruct (Qlt_le_dec s 0) as [X|X]; [exfalso|exact X]. assert ((qnat n - 1) * s < 0) by nra. lra.
    + assert (b == 0) by lra. destruct (Qlt_le_dec s 0) as [X|X]; [exfalso|exact X]. assert (qnat n * s < 0) by nra. lra.
Qed.
Print Assumptions C27_nonnegative.
(** The space before the paragraph and the line spacing written are these, to one
    decimal; the line spacing is exact for all but paragraphs with pictures. *)
Theorem C27_written bb p before after lsp ls bs : let w := make_paragraph bb p before after lsp ls bs in
  0 <= before -> Qabs (wp_before w - before) <= 1 # 20 /\ 0 <= wp_before w /\ 0 <= wp_after w /\ Qabs (wp_line w - lsp) <= 1 # 20 /\
  (wp_exact w = true <-> forall l s, In l ls -> In s (ln_spans l) -> exists t, s = SText t).
Proof.
  cbv zeta. intros B. cbn [make_paragraph wp_before wp_after wp_line]. pose proof (clip_bound before) as C. destruct (qlt_spec before 0); [lra|]. split; [exact C|]. split; [apply qmax_r|]. split; [apply qmax_r|].
  split; [apply (proj2 (Qabs_le _ _)); apply round1_bound|]. cbn [make_paragraph wp_exact]. rewrite forallb_forall. split.
  - intros H l s Hl Hs. specialize (H l Hl). rewrite forallb_forall in H. specialize (H s Hs). destruct s as [t|k r]; [exists t; reflexivity|discriminate H].
  - intros H l Hl. rewrite forallb_forall. intros s Hs. destruct (H l s Hl Hs) as (t & ->). reflexivity.
Qed.
Print Assumptions C27_written.
(** Refuted for one row: when the first line is lower than the block, the paragraph
    becomes smaller than the block. *)
Theorem C27_single_row_refuted : exists bb l0 t before b s, row_count (l0 :: t) 1 /\ line_spacing bb (l0 :: t) before = Some (b, s) /\
  0 <= before /\ b + s < before + extent true bb.
Proof.
  exists (mkRect 0 0 100 20), (tline 0 5 40 15), [tline 50 0 100 20], 0. do 2 eexists. split; [apply rc_same; [reflexivity|constructor]|].
  split; [vm_compute; reflexivity|]. split; vm_compute; [discriminate|reflexivity].
Qed.
Print Assumptions C27_single_row_refuted.
(** Refuted without the height condition: a first line higher than the block. *)
Theorem C27_negative_refuted : exists bb l0 t before b s, line_spacing bb (l0 :: t) before = Some (b, s) /\ 0 <= before /\ s < 0.
Proof.
  exists (mkRect 0 0 100 20), (tline 0 0 40 60), [tline 0 70 100 90], 0. do 2 eexists. split; [vm_compute; reflexivity|]. split; vm_compute; [discriminate|reflexivity].
Qed.
Print Assumptions C27_negative_refuted.
Example C27_ex : row_count [tline 0 0 40 10; tline 0 15 40 25; tline 0 30 40 40] 3 /\
  exists b s, line_spacing (mkRect 0 0 40 40) [tline 0 0 40 10; tline 0 15 40 25; tline 0 30 40 40] 20 = Some (b, s) /\ b == 15 /\ s == 15.
Proof.
  split; [apply rc_next; [reflexivity|]; apply rc_next; [reflexivity|]; constructor|]. do 2 eexists. split; [vm_compute; reflexivity|]. split; reflexivity.
Qed.

(* ------------------------------------------------------------------ *)
(** * C50 *)
(** Word puts the left-aligned paragraph where it was, up to the thresholds, but shifted
    to the left by a positive first-line indent. *)
Theorem C50_left_shift order bb container th ls rows r0 r1 rest a b before after lsp bs p : (forall l, Permutation l (order l)) ->
  is_horizontal (block_dir ls) = true -> group same_row order ls = Some rows -> rows = r0 :: r1 :: rest -> left_aligned true th rows ->
  first_line r0 a -> first_line r1 b -> 0 <= side_left true bb container -> 0 <= th_left th ->
  (forall r l, In r rows -> first_line r l -> rx0 bb <= rx0 (ln_bbox l)) ->
  (exists r l, In r rows /\ first_line r l /\ rx0 bb == rx0 (ln_bbox l)) ->
  parse_horizontal order bb container th ls fresh_para = Some p ->
  let w := make_paragraph bb p before after lsp ls bs in
  let indent := rx0 (ln_bbox a) - rx0 (ln_bbox b) in
  let shift := if qlt 0 indent then indent else 0 in
  let tol := 2 * th_left th + (1 # 20) in
  Qabs (word_first_line w - (rx0 (ln_bbox a) - rx0 container - shift)) <= tol /\
  forall r l, In r (r1 :: rest) -> first_line r l -> Qabs (word_other_lines w - (rx0 (ln_bbox l) - rx0 container - shift)) <= tol.
Proof.
  intros Ho Hh Hg Er La Ha Hb Sl Tl Lo (rm & m & Hrm & Hm & Em) E. cbv zeta.
  destruct (rows_exist order ls Ho) as (rows' & E' & _ & N & _). rewrite Hg in E'. injection E' as <-.
  unfold parse_horizontal in E. rewrite Hg, Hh in E. injection E as <-.
  pose proof (spacing_left true bb container th ls rows fresh_para _ (internal_left true th rows N La)) as Y. cbv zeta in Y. rewrite Y. clear Y.
  unfold word_first_line, word_other_lines. cbn [make_paragraph wp_left wp_first pa_left pa_first].
  pose proof (clip_bound (side_left true bb container)) as C. destruct (qlt_spec (side_left true bb container) 0); [lra|]. apply Qabs_le in C.
  set (lt := qmax (round1 (side_left true bb container)) 0) in *. unfold side_left in C.
  assert (Ef : row_first true (nth 0 rows []) - row_first true (nth 1 rows []) = rx0 (ln_bbox a) - rx0 (ln_bbox b)).
  { rewrite Er. destruct Ha as (t1 & ->), Hb as (t2 & ->). reflexivity. }
  rewrite Ef. destruct La as (_ & _ & Lw & _).
  assert (W : forall r l r' l', In r (r1 :: rest) -> In r' (r1 :: rest) -> first_line r l -> first_line r' l' -> - th_left th <= rx0 (ln_bbox l) - rx0 (ln_bbox l') <= th_left th).
  { intros r l r' l' I1 I2 F1 F2. apply Qabs_le. apply (Lw r r' l l'); try assumption; unfold left_rows; rewrite Er; destruct (3 <=? _)%nat; cbn [tl]; try assumption; right; assumption. }
  assert (B1 : In r1 (r1 :: rest)) by (left; reflexivity).
  assert (La0 : rx0 bb <= rx0 (ln_bbox a)) by (apply (Lo r0); [rewrite Er; left; reflexivity|exact Ha]).
  assert (Lall : forall r l, In r (r1 :: rest) -> first_line r l -> rx0 bb <= rx0 (ln_bbox l)) by (intros r l I F; apply (Lo r); [rewrite Er; right; exact I|exact F]).
  pose proof (Lall r1 b B1 Hb) as Lb.
  assert (Mn : rx0 bb == rx0 (ln_bbox a) \/ (rx0 (ln_bbox b) - th_left th <= rx0 bb)).
  { rewrite Er in Hrm. destruct Hrm as [<-|Hrm].
    - left. destruct Ha as (t1 & Ea), Hm as (t2 & Em'). assert (m = a) by congruence. subst m. exact Em.
    - right. pose proof (W rm m r1 b Hrm B1 Hm Hb). lra. }
  split.
  - apply Qabs_le. destruct (qlt_spec 0 (rx0 (ln_bbox a) - rx0 (ln_bbox b))), Mn; split; lra.
  - intros r l I F. pose proof (W r l r1 b I B1 F Hb) as Wl. pose proof (Lall r l I F).
    apply Qabs_le. destruct (qlt_spec 0 (rx0 (ln_bbox a) - rx0 (ln_bbox b))), Mn; split; lra.
Qed.
Print Assumptions C50_left_shift.
(** Otherwise all lines of the paragraph have the same indents, and the aligned side is
    at its distance from the container. *)
Theorem C50_sides order bb container th ls rows before after lsp bs p : (forall l, Permutation l (order l)) ->
  group same_row order ls = Some rows -> ~ left_aligned (is_horizontal (block_dir ls)) th rows ->
  parse_horizontal order bb container th ls fresh_para = Some p ->
  let h := is_horizontal (block_dir ls) in
  let w := make_paragraph bb p before after lsp ls bs in
  wp_align w = pa_align p /\ word_first_line w == word_other_lines w /\
  (In (wp_align w) [A_LEFT; A_JUSTIFY] -> 0 <= side_left h bb container -> Qabs (word_other_lines w - side_left h bb container) <= 1 # 20) /\
  (In (wp_align w) [A_RIGHT; A_JUSTIFY] -> 0 <= side_right h bb container -> Qabs (wp_right w - side_right h bb container) <= 1 # 20) /\
  (wp_align w = A_CENTER -> wp_left w == wp_right w) /\
  (wp_align w = A_CENTER -> (length rows < 2)%nat -> 
     Qabs (side_left h bb container - side_right h bb container) < 2 * th_center th + (1 # 5)).
Proof.
  intros Ho Hg Nl E. cbv zeta. set (h := is_horizontal (block_dir ls)) in *.
  destruct (C26_decided order bb container th ls fresh_para Ho) as (p' & E' & D). rewrite E in E'. injection E' as <-.
  destruct (C26_spaces _ _ _ _ _ _ _ E) as (S1 & S2 & _ & _ & S5 & S6 & S7 & S8 & S9 & S10). fold h in S1, S2.
  assert (F0 : pa_first p == 0).
  { destruct (rows_exist order ls Ho) as (rows' & E'' & _ & N & _). rewrite Hg in E''. injection E'' as <-.
    unfold parse_horizontal in E. rewrite Hg in E. injection E as <-. fold h. unfold horizontal_spacing.
    destruct (internal_alignment h th rows) as [ia f] eqn:Ei. destruct f as [f|].
    - exfalso. apply Nl. destruct (internal_cases h th rows N) as (I1 & I2 & I3). unfold left_aligned.
      pose proof (has_gap_spec h (th_sep th) rows) as G. destruct (existsb (wide_gap h (th_sep th)) rows) eqn:Eg.
      { rewrite (I1 (proj1 G eq_refl)) in Ei. discriminate. }
      assert (G' : ~ has_gap h (th_sep th) rows) by (intros X; apply G in X; discriminate). split; [exact G'|].
      unfold internal_alignment in Ei. rewrite Eg in Ei. destruct (Nat.ltb_spec (length rows) 2) as [L|L]; [discriminate|]. split; [exact L|].
      destruct (I3 G' L) as (J1 & J2 & J3 & J4 & J5). clear I1 I2 I3.
      assert (K : forall x, internal_alignment h th rows = x -> x = (ia, Some f)).
      { intros x <-. unfold internal_alignment. rewrite Eg. destruct (Nat.ltb_spec (length rows) 2); [lia|]. exact Ei. }
      split.
      + (* classical reasoning is avoided: the tests are decidable *)
        cbv zeta in Ei. set (three := (3 <=? length rows)%nat) in *.
        assert (El : (if three then tl (map (row_first h) rows) else map (row_first h) rows) = map (row_first h) (left_rows rows)) by (unfold left_rows; fold three; destruct three; [apply tl_map|reflexivity]).
        rewrite El in Ei.
        assert (Nel : map (row_first h) (left_rows rows) <> []) by (unfold left_rows; fold three; destruct rows as [|x [|y t]]; cbn in L; try lia; destruct three; discriminate).
        assert (Ns : forall r, In r (left_rows rows) -> r <> []) by (intros q Hq; apply N; unfold left_rows in Hq; destruct (3 <=? length rows)%nat; [apply in_tl; exact Hq|exact Hq]).
        apply (lefts_spec h (th_left th) _ Ns). apply (spread_within _ (th_left th) Nel).
        destruct (qle (spread (map (row_first h) (left_rows rows))) (th_left th)); [reflexivity|]. exfalso. cbn [andb] in Ei.
        destruct (qle _ (th_right th)); [discriminate|]. destruct (qle _ (th_center th)); discriminate.
      + intros R. assert (X : internal_alignment h th rows = (A_RIGHT, None) \/ exists a, internal_alignment h th rows = (a, None)).
        { right. unfold internal_alignment. rewrite Eg. destruct (Nat.ltb_spec (length rows) 2); [lia|]. cbv zeta.
          assert (Er : (if (3 <=? length rows)%nat then removelast (map (row_last h) rows) else map (row_last h) rows) = map (row_last h) (right_rows rows)) by (unfold right_rows; destruct (3 <=? length rows)%nat; [apply removelast_map|reflexivity]).
          rewrite Er.
          assert (Ner : map (row_last h) (right_rows rows) <> []) by (unfold right_rows; destruct rows as [|x [|y t]]; cbn in L; try lia; destruct (3 <=? _)%nat; discriminate).
          assert (Ns : forall r, In r (right_rows rows) -> r <> []) by (intros q Hq; apply N; unfold right_rows in Hq; destruct (3 <=? length rows)%nat; [apply in_removelast; exact Hq|exact Hq]).
          apply (rights_spec h (th_right th) _ Ns) in R. apply (spread_within _ (th_right th) Ner) in R. rewrite R.
          destruct (qle (spread (if (3 <=? length rows)%nat then _ else _)) (th_left th)); cbn [andb]; [destruct (3 <=? length rows)%nat|]; eexists; reflexivity. }
        destruct X as [X|(x & X)]; apply K in X; discriminate.
    - destruct (external_alignment h bb container (th_center th)) as [[e lt] rt]. destruct ia; try reflexivity. destruct e; reflexivity. }
  unfold word_first_line, word_other_lines. cbn [make_paragraph wp_align wp_left wp_first wp_right].
  assert (Wa : match pa_align p with A_LEFT => A_LEFT | A_RIGHT => A_RIGHT | A_CENTER => A_CENTER | _ => A_JUSTIFY end = pa_align p) by (destruct D as [<-|[<-|[<-|[<-|[]]]]]; reflexivity).
  rewrite Wa. split; [reflexivity|]. split; [rewrite F0; lra|]. split; [|split; [|split]].
  - intros A G. specialize (S1 G). rewrite F0. assert (X : pa_left p = pa_left_total p) by (destruct A as [A|[A|[]]]; [apply S7; symmetry; exact A|apply S10; symmetry; exact A]).
    rewrite X. setoid_replace (pa_left_total p - 0 - side_left h bb container) with (pa_left_total p - side_left h bb container) by ring. exact S1.
  - intros A G. specialize (S2 G). assert (X : pa_right p = pa_right_total p) by (destruct A as [A|[A|[]]]; [apply S8; symmetry; exact A|apply S10; symmetry; exact A]).
    rewrite X. exact S2.
  - intros A. rewrite F0, (S9 A). lra.
  - intros A L. destruct (C26_rules order bb container th ls fresh_para rows p Ho Hg E) as (R1 & R2 & _). fold h in R1, R2.
    pose proof (has_gap_spec h (th_sep th) rows) as G. destruct (existsb (wide_gap h (th_sep th)) rows) eqn:Eg; [rewrite (R1 (proj1 G eq_refl)) in A; discriminate|].
    assert (G' : ~ has_gap h (th_sep th) rows) by (intros X; apply G in X; discriminate). specialize (R2 G' L). rewrite A in R2.
    destruct R2 as [(X & _)|[(_ & _ & X)|(_ & _ & _ & X)]]; try discriminate.
    pose proof (round1_bound (side_left h bb container)) as B1. pose proof (round1_bound (side_right h bb container)) as B2.
    set (sl := round1 (side_left h bb container)) in *. set (sr := round1 (side_right h bb container)) in *.
    pose proof (round1_bound ((sl - sr) / 2)) as B3. set (d := round1 ((sl - sr) / 2)) in *.
    assert (Hd : (sl - sr) / 2 == (1 # 2) * (sl - sr)) by field. rewrite Hd in B3.
    apply Qabs_Qlt_condition in X. apply Qabs_Qlt_condition. split; lra.
Qed.
Print Assumptions C50_sides.
(** Refuted: "Word shows the paragraph where the PDF does": a first-line indent moves the
    whole paragraph to the left. *)
Theorem C50_indent_refuted : exists bb container th ls p, th_left th <= 1 /\ 0 <= side_left true bb container /\
  parse_horizontal idorder bb container th ls fresh_para = Some p /\ pa_align p = A_LEFT /\
  forall before after lsp bs, let w := make_paragraph bb p before after lsp ls bs in
    word_other_lines w + 20 == side_left true bb container.
Proof.
  exists (mkRect 50 0 140 40), (mkRect 10 0 150 100), th0, [tline 70 0 140 10; tline 50 15 135 25; tline 50 30 100 40]. eexists.
  split; [discriminate|]. split; [vm_compute; discriminate|]. split; [vm_compute; reflexivity|]. split; [reflexivity|]. intros. vm_compute. reflexivity.
Qed.
Print Assumptions C50_indent_refuted.
(** Refuted: "the first-line indent of a justified paragraph is kept". *)
Theorem C50_justify_indent_refuted : exists bb container th ls p a b,
  nth_error ls 0 = Some a /\ nth_error ls 1 = Some b /\ rx0 (ln_bbox a) == rx0 (ln_bbox b) + 20 /\
  parse_horizontal idorder bb container th ls fresh_para = Some p /\ pa_align p = A_JUSTIFY /\ pa_first p == 0.
Proof.
  exists (mkRect 50 0 140 40), (mkRect 10 0 150 100), th0, [tline 70 0 140 10; tline 50 15 140 25; tline 50 30 100 40]. do 3 eexists.
  split; [reflexivity|]. split; [reflexivity|]. split; [reflexivity|]. split; [vm_compute; reflexivity|]. split; reflexivity.
Qed.
Print Assumptions C50_justify_indent_refuted.
(** Refuted for vertical text: an indented first line gets a hanging indent. *)
Theorem C50_vertical_indent_refuted : exists bb container th ls p a b,
  nth_error ls 0 = Some a /\ nth_error ls 1 = Some b /\ line_offset false bb a == line_offset false bb b + 20 /\
  parse_horizontal idorder bb container th ls fresh_para = Some p /\ pa_align p = A_LEFT /\ pa_first p == -20.
Proof.
  exists (mkRect 0 0 40 100), (mkRect 0 0 100 120), th0, [vline 0 0 10 80; vline 15 10 25 100; vline 30 50 40 100]. do 3 eexists.
  split; [reflexivity|]. split; [reflexivity|]. split; [reflexivity|]. split; [vm_compute; reflexivity|]. split; reflexivity.
Qed.
Print Assumptions C50_vertical_indent_refuted.
Example C50_ex : let ls := [tline 10 0 100 10; tline 20 15 95 25; tline 20 30 60 40] in exists rows, group same_row idorder ls = Some rows /\ left_aligned true th0 rows.
Proof.
  cbv zeta. eexists. split; [vm_compute; reflexivity|].
  assert (F : forall l t, first_line t l <-> exists q, t = l :: q) by (intros; reflexivity).
  split; [|split; [cbn; lia|split]].
  - intros (r & pre & a & b & post & Hr & E & _). assert (2 <= length r)%nat by (rewrite E, app_length; cbn [length]; lia). repeat (destruct Hr as [<-|Hr]; [cbn in H; lia|]). destruct Hr.
  - intros r1 r2 a b H1 H2 (t1 & E1) (t2 & E2). cbn in H1, H2. destruct H1 as [<-|[<-|[]]], H2 as [<-|[<-|[]]]; injection E1 as <- <-; injection E2 as <- <-; vm_compute; discriminate.
  - intros R. specialize (R [tline 10 0 100 10] [tline 20 15 95 25] (tline 10 0 100 10) (tline 20 15 95 25)). 
    assert (X : Qabs (right_edge true (tline 10 0 100 10) - right_edge true (tline 20 15 95 25)) <= th_right th0).
    { apply R; [left; reflexivity|right; left; reflexivity|exists []; reflexivity|exists []; reflexivity]. }
    vm_compute in X. apply X. reflexivity.
Qed.

(* ------------------------------------------------------------------ *)
(** * C51 *)
(** The paragraph shows the spans of all lines, in order; it consists of the lines, each
    preceded by tabs (only if the paragraph has tab stops) and followed by its break. *)
Theorem C51_content bb p before after lsp ls bs : length bs = length ls ->
  let w := make_paragraph bb p before after lsp ls bs in
  item_spans (wp_items w) = flat_map ln_spans ls /\
  exists ks, length ks = length ls /\ wp_items w = assemble ks ls bs /\ (pa_tabs p = [] -> forall k, In k ks -> k = O).
Proof.
  intros L. cbv zeta. cbn [make_paragraph wp_items]. destruct (write_assemble (is_horizontal (block_dir ls)) bb p ls bs (pa_left p) L) as (ks & A & B & _ & _ & C).
  split; [rewrite B; apply assemble_spans; assumption|]. exists ks. auto.
Qed.
Print Assumptions C51_content.
Lemma line_blank_spec l : line_blank l = true <-> blank_line l.
Proof.
  unfold line_blank, blank_line. rewrite forallb_forall. split; intros H s Hs; specialize (H s Hs).
  - destruct s as [t|k b]; [|discriminate]. exists t. split; [reflexivity|]. unfold span_blank in H. rewrite forallb_forall in H. exact H.
  - destruct H as (t & -> & H). unfold span_blank. apply forallb_forall. exact H.
Qed.
(** Breaks: never inside a row, never after the last line; elsewhere exactly when the
    free room exceeds the threshold or the next line is blank. *)
Theorem C51_breaks h bb p free ls bs : line_breaks h bb p free ls = Some bs ->
  length bs = length ls /\ (forall i, S i = length ls -> nth_error bs i = Some false) /\
  forall i a b, nth_error ls i = Some a -> nth_error ls (S i) = Some b ->
    (same_row a b = true -> nth_error bs i = Some false) /\
    (same_row a b = false -> (nth_error bs i = Some true <-> (exists x, free_room h bb p a x /\ free < x) \/ blank_line b)).
Proof.
  intros E. split; [apply (breaks_length _ _ _ _ _ _ E)|]. destruct (breaks_spec _ _ _ _ _ _ E) as (A & B). split; [exact A|].
  intros i a b Ha Hb. specialize (B i a b Ha Hb). split; [intros R; rewrite B, R; reflexivity|]. intros R. rewrite B, R. cbn [negb andb].
  assert (W : ~ endp h bb == startp h bb).
  { clear B A. revert bs i a b Ha Hb R E. induction ls as [|l t IH]; intros bs i a b Ha Hb R E; [destruct i; discriminate|]. destruct t as [|n t]; [destruct i as [|[|i]]; discriminate|].
    change (line_breaks h bb p free (l :: n :: t)) with (match line_breaks h bb p free (n :: t) with None => None | Some bs =>
      if same_row l n then Some (false :: bs) else if qeq (endp h bb - startp h bb) 0 then None
      else if qlt free (free_ratio h bb p l) then Some (true :: bs) else Some (line_blank n :: bs) end) in E.
    destruct (line_breaks h bb p free (n :: t)) as [bs'|]; [|discriminate]. destruct i as [|i].
    - injection Ha as <-. injection Hb as <-. rewrite R in E. destruct (qeq_spec (endp h bb - startp h bb) 0); [discriminate|]. lra.
    - apply (IH bs' i a b Ha Hb R eq_refl). }
  assert (F : forall x, free_room h bb p a x <-> x == free_ratio h bb p a).
  { intros x. unfold free_room, free_ratio. set (d := Qabs (if h then rx1 bb - rx0 bb else ry0 bb - ry1 bb)).
    assert (Ed : d == qabs (endp h bb - startp h bb)) by (rewrite qabs_Qabs'; unfold d, endp, startp; destruct h; reflexivity).
    assert (Pd : ~ d == 0) by (rewrite Ed, qabs_Qabs'; intros X; apply W; destruct (Qlt_le_dec 0 (endp h bb - startp h bb)); [rewrite Qabs_pos in X by lra; lra|rewrite Qabs_neg in X by lra; lra]).
    assert (G : forall u v, u == v -> x * d == u <-> x == v / qabs (endp h bb - startp h bb)).
    { intros u v Euv. rewrite <- Ed. split; intros X; [rewrite <- Euv, <- X; field; exact Pd|rewrite X, Euv; field; exact Pd]. }
    assert (Eq1 : Qabs (left_edge h a - (if h then rx0 bb else ry1 bb)) + (pa_left_total p - pa_left p) == qabs (startp h bb - lstart h a) + (pa_left_total p - pa_left p)).
    { rewrite qabs_Qabs', (Qabs_Qminus (startp h bb)). unfold left_edge, lstart, startp. destruct h; reflexivity. }
    assert (Eq2 : Qabs (right_edge h a - (if h then rx1 bb else ry0 bb)) + (pa_right_total p - pa_right p) == qabs (endp h bb - lend h a) + (pa_right_total p - pa_right p)).
    { rewrite qabs_Qabs', (Qabs_Qminus (endp h bb)). unfold right_edge, lend, endp. destruct h; reflexivity. }
    destruct (pa_align p); apply G; assumption. }
  split.
  - intros H. assert (H' : qlt free (free_ratio h bb p a) || line_blank b = true) by congruence. apply orb_true_iff in H'. destruct H' as [H'|H'].
    + left. exists (free_ratio h bb p a). split; [apply F; reflexivity|apply qlt_iff; exact H'].
    + right. apply line_blank_spec. exact H'.
  - intros H. f_equal. apply orb_true_iff. destruct H as [(x & Hx & Hf)|H]; [left; apply F in Hx; apply qlt_iff; lra|right; apply line_blank_spec; exact H].
Qed.
Print Assumptions C51_breaks.
(** The step fails only for a block of no width. *)
Theorem C51_breaks_defined h bb p free ls : ~ extent (negb h) bb == 0 -> exists bs, line_breaks h bb p free ls = Some bs.
Proof. intros N. apply breaks_defined. unfold endp, startp, extent in *. destruct h; cbn in N; lra. Qed.
Print Assumptions C51_breaks_defined.
Theorem C51_zero_width_refuted : exists bb p ls, ls <> [] /\ line_breaks true bb p (1 # 10) ls = None.
Proof. exists (mkRect 0 0 0 20), fresh_para, [tline 0 0 0 5; tline 0 10 0 15]. split; [discriminate|vm_compute; reflexivity]. Qed.
Print Assumptions C51_zero_width_refuted.
Example C51_ex : let ls := [tline 0 0 40 10; tline 0 15 100 25; tline 0 30 40 40] in
  line_breaks true (mkRect 0 0 100 40) fresh_para (1 # 10) ls = Some [true; true; false].
Proof. vm_compute. reflexivity. Qed.

(* ------------------------------------------------------------------ *)
(** * C52 *)
(** In horizontal text without a common alignment, the first line of every row starts,
    after its tabs, within one point of its place in the PDF. *)
Theorem C52_tabs_land order bb container th ls rows p before after lsp bs : (forall l, Permutation l (order l)) ->
  is_horizontal (block_dir ls) = true -> group same_row order ls = Some rows -> undecided true th rows ->
  (forall l, In l ls -> rx0 bb <= rx0 (ln_bbox l)) -> length bs = length ls ->
  parse_horizontal order bb container th ls fresh_para = Some p ->
  let w := make_paragraph bb p before after lsp ls bs in
  exists ks, length ks = length ls /\ wp_items w = assemble ks ls bs /\
    forall i l, nth_error ls i = Some l -> starts_row ls i -> exists k q, nth_error ks i = Some k /\
      lands (wp_stops w) (word_other_lines w) k q /\ Qabs (q - (word_other_lines w + (rx0 (ln_bbox l) - rx0 bb))) <= 1.
Proof.
  intros Ho Hh Hg U In0 Lb E. cbv zeta.
  destruct (rows_exist order ls Ho) as (rows' & E' & _ & N & _). rewrite Hg in E'. injection E' as <-.
  unfold parse_horizontal in E. rewrite Hg, Hh in E. injection E as <-.
  pose proof (spacing_undecided true bb container th ls rows fresh_para (internal_undecided true th rows N U)) as Y. cbv zeta in Y. rewrite Y. clear Y.
  set (lt := qmax (round1 (side_left true bb container)) 0). set (rt := qmax (round1 (side_right true bb container)) 0).
  assert (L0 : 0 <= lt) by apply qmax_r.
  set (p := mkPara A_LEFT lt (qmin lt rt) (pa_first fresh_para) lt rt (tab_positions true bb ls)).
  cbn [make_paragraph wp_items]. rewrite Hh. destruct (write_assemble true bb p ls bs (pa_left p) Lb) as (ks & A & B & C & D & _).
  exists ks. split; [exact A|]. split; [exact B|]. intros i l Hl St. pose proof (starts_tab true bb p ls ks A C D i l Hl St) as K.
  exists (tab_count true bb p (pa_left p) l). unfold word_other_lines. cbn [make_paragraph wp_left wp_stops].
  assert (W0 : pa_left p - pa_first p == lt) by (cbn [p pa_left pa_first fresh_para]; lra).
  set (x := rx0 (ln_bbox l) - rx0 bb). assert (X0 : 0 <= x) by (pose proof (In0 l (nth_error_In _ _ Hl)); unfold x; lra).
  assert (Sorted_ : StronglySorted Qlt (para_stops p)) by (unfold para_stops; cbn [p pa_align]; apply stops_sorted, distinct_map_add, tabs_distinct).
  assert (Ge : forall s, In s (para_stops p) -> lt + 1 <= s).
  { intros s Hs. apply (para_stops_In p s eq_refl) in Hs. destruct Hs as (t & Ht & ->). cbn [p pa_tabs pa_left] in *. destruct (tabs_spec _ _ _ _ Ht) as (T & _). lra. }
  assert (Z : exists q, lands (para_stops p) (pa_left p - pa_first p) (tab_count true bb p (pa_left p) l) q /\ Qabs (q - (lt + x)) <= 1).
  { assert (Zero : tab_count true bb p (pa_left p) l = O -> x <= 1 -> exists q, lands (para_stops p) (pa_left p - pa_first p) (tab_count true bb p (pa_left p) l) q /\ Qabs (q - (lt + x)) <= 1).
    { intros -> Hx. eexists. split; [constructor|]. apply Qabs_le. lra. }
    assert (Off : line_offset true bb l = x) by reflexivity.
    destruct (pa_tabs p) as [|t0 ts] eqn:Et.
    { apply Zero; [unfold tab_count; rewrite Et; destruct (qlt _ _); reflexivity|]. destruct (Qlt_le_dec 1 x) as [G|G]; [exfalso|exact G].
      destruct (tabs_complete true bb ls l (nth_error_In _ _ Hl)) as (t & Ht & _); [rewrite Off; apply round1_ge1; lra|]. cbn [p pa_tabs] in Et. rewrite Et in Ht. destruct Ht. }
    revert Zero. unfold tab_count. rewrite Et. cbn [negb]. rewrite andb_true_r. change (lstart true l - startp true bb) with x. change (pa_left p) with lt.
    destruct (qlt_spec lt (lt + x)) as [G|G]; [|intros Zero; apply Zero; [reflexivity|lra]].
    unfold add_stop. destruct (qlt_spec (lt + x) MINOR_DIST) as [G1|G1]; [intros Zero; apply Zero; [reflexivity|unfold MINOR_DIST in G1; lra]|]. intros _.
    assert (W1 : lt - pa_first p = pa_left p - pa_first p) by reflexivity.
    assert (Comp : count_tabs (para_stops p) (lt + x) lt = count_tabs (para_stops p) (lt + x) (pa_left p - pa_first p)).
    { clear - W0. revert W0. set (c := pa_left p - pa_first p). clearbody c. intros W0. induction (para_stops p) as [|s t IH]; [reflexivity|]. cbn [count_tabs]. rewrite (qlt_comp s c s lt) by (try reflexivity; exact W0). rewrite IH. reflexivity. }
    rewrite W1, Comp.
    destruct (tabs_land (lt + x) (para_stops p) (pa_left p - pa_first p) Sorted_) as (q & Lq & R).
    { intros s Hs Es. specialize (Ge s Hs). lra. }
    exists q. split; [exact Lq|]. apply Qabs_le.
    assert (Near : 1 <= x -> exists s, In s (para_stops p) /\ lt + x - (1 # 20) <= s <= lt + x + (1 # 20)).
    { intros Hx. destruct (tabs_complete true bb ls l (nth_error_In _ _ Hl)) as (t & Ht & Ett); [rewrite Off; apply round1_ge1; exact Hx|].
      exists (lt + t). split; [apply (para_stops_In p _ eq_refl); exists t; split; [exact Ht|reflexivity]|]. rewrite Off in Ett. pose proof (round1_bound x). lra. }
    destruct R as [(Eq & R)|(Iq & R1 & R2 & R3)].
    - destruct (Qlt_le_dec x 1) as [Hx|Hx]; [lra|]. destruct (Near Hx) as (s & Hs & Bs). exfalso. specialize (Ge s Hs). assert (pa_left p - pa_first p < s) by lra. specialize (R s Hs H). lra.
    - destruct (Qlt_le_dec x 1) as [Hx|Hx]; [specialize (Ge q Iq); lra|]. destruct (Near Hx) as (s & Hs & Bs). specialize (R3 s Hs). assert (s <= q) by (apply R3; lra). lra. }
  destruct Z as (q & Z1 & Z2). exists q. split; [exact K|]. split; [exact Z1|]. apply Qabs_le. apply Qabs_le in Z2. lra.
Qed.
Print Assumptions C52_tabs_land.
(** Refuted for later lines of a row: the third line of a row gets no tab although a
    stop is at its place. *)
Theorem C52_third_column_refuted : exists bb container th a b c p,
  let ls := [a; b; c] in same_row a b = true /\ same_row b c = true /\ rx1 (ln_bbox b) + 50 == rx0 (ln_bbox c) /\
  parse_horizontal idorder bb container th ls fresh_para = Some p /\
  In (rx0 (ln_bbox c) - rx0 container) (map Qred (para_stops p)) /\
  forall before after lsp, wp_items (make_paragraph bb p before after lsp ls [false; false; false]) = assemble [0; 1; 0]%nat ls [false; false; false].
Proof.
  exists (mkRect 0 0 400 10), (mkRect 0 0 400 100), th0, (tline 0 0 50 10), (tline 100 0 150 10), (tline 200 0 400 10). eexists. cbv zeta.
  split; [reflexivity|]. split; [reflexivity|]. split; [reflexivity|]. split; [vm_compute; reflexivity|]. split; [vm_compute; auto|]. intros. vm_compute. reflexivity.
Qed.
Print Assumptions C52_third_column_refuted.
(** Refuted for vertical text: no line ever gets a tab. *)
Theorem C52_vertical_refuted bb p before after lsp ls bs : is_horizontal (block_dir ls) = false -> length bs = length ls ->
  (forall l, In l ls -> ry1 (ln_bbox l) <= ry1 bb) ->
  wp_items (make_paragraph bb p before after lsp ls bs) = assemble (repeat O (length ls)) ls bs.
Proof.
  intros Hh L I. cbn [make_paragraph wp_items]. rewrite Hh. clear Hh. generalize (pa_left p) at 1 as cur. revert bs L. induction ls as [|l t IH]; intros bs L cur; [reflexivity|].
  destruct bs as [|b bs]; [discriminate|]. injection L as L. cbn [length repeat assemble write_lines].
  assert (Z : qlt (pa_left p) (pa_left p + (lstart false l - startp false bb)) = false).
  { destruct (qlt_spec (pa_left p) (pa_left p + (lstart false l - startp false bb))) as [G|G]; [|reflexivity]. exfalso. specialize (I l (or_introl eq_refl)). unfold lstart, startp in G. lra. }
  rewrite Z. cbn [andb app]. do 2 f_equal. apply IH; [intros x Hx; apply I; right; exact Hx|exact L].
Qed.
Print Assumptions C52_vertical_refuted.
Example C52_ex : exists p rows, let ls := [tline 10 0 30 10; tline 60 0 100 10; tline 40 20 70 30] in
  group same_row idorder ls = Some rows /\ undecided true th0 rows /\ starts_row ls 2 /\
  parse_horizontal idorder (mkRect 10 0 100 40) (mkRect 0 0 110 100) th0 ls fresh_para = Some p /\
  wp_items (make_paragraph (mkRect 10 0 100 40) p 0 0 0 ls [false; true; false]) = assemble [0; 2; 1]%nat ls [false; true; false].
Proof.
  eexists. eexists. cbv zeta. split; [vm_compute; reflexivity|]. split.
  { left. eexists. exists [], (tline 10 0 30 10), (tline 60 0 100 10), []. split; [left; reflexivity|]. split; [reflexivity|]. vm_compute. discriminate. }
  split; [right; exists 1%nat; do 2 eexists; split; [reflexivity|]; split; [reflexivity|]; split; reflexivity|].
  split; [vm_compute; reflexivity|vm_compute; reflexivity].
Qed.

(* ------------------------------------------------------------------ *)
(** * C53 *)
(** Word gets the bold and italic flags and the size to the next half point; a character
    scale makes up for the rest unless it is below one percent. *)
Theorem C53_font flags size r : run_font flags size = Some r ->
  (rf_bold r = true <-> Z.testbit flags 4 = true) /\ (rf_italic r = true <-> Z.testbit flags 1 = true) /\
  Qabs (rf_size r - size) <= 1 # 4 /\ (exists k, rf_size r == inject_Z k / 2) /\ ~ rf_size r == 0 /\
  match rf_scale r with Some s => s * rf_size r == size | None => Qabs (size - rf_size r) < Qabs (rf_size r) / 100 end.
Proof.
  unfold run_font. cbv zeta. pose proof (round_half_even_bound (size * 2)) as B. set (k := round_half_even (size * 2)) in *.
  assert (K : inject_Z k / 2 == (1 # 2) * inject_Z k) by field.
  destruct (qeq_spec (inject_Z k / 2) 0) as [E|E]; [discriminate|]. intros H. injection H as <-. cbn [rf_bold rf_italic rf_size rf_scale].
  split; [reflexivity|]. split; [reflexivity|]. split; [apply Qabs_le; rewrite K; lra|]. split; [exists k; reflexivity|]. split; [exact E|].
  set (fs := inject_Z k / 2) in *. destruct (qle_spec (1 # 100) (qabs (size / fs - 1))) as [G|G].
  - field. exact E.
  - rewrite qabs_Qabs' in G. assert (X : size - fs == fs * (size / fs - 1)) by (field; exact E). rewrite X, Qabs_Qmult.
    assert (P : 0 < Qabs fs) by (destruct (Qlt_le_dec 0 fs); [rewrite Qabs_pos by lra; lra|rewrite Qabs_neg by lra; lra]).
    assert (G' : Qabs (size / fs - 1) < 1 # 100) by lra.
    assert (Y : Qabs fs / 100 == Qabs fs * (1 # 100)) by field. rewrite Y. apply Qmult_lt_l; assumption.
Qed.
Print Assumptions C53_font.
(** Defined for every size above a quarter point. *)
Theorem C53_defined flags size : 1 # 4 < size -> exists r, run_font flags size = Some r.
Proof.
  intros H. unfold run_font. cbv zeta. pose proof (round_half_even_bound (size * 2)) as B. set (k := round_half_even (size * 2)) in *.
  assert (P : (0 < k)%Z).
  { assert (X : 0 < inject_Z k) by lra. rewrite Zlt_Qlt. exact X. }
  destruct (qeq_spec (inject_Z k / 2) 0) as [E|E]; [exfalso|eexists; reflexivity].
  assert (K : inject_Z k / 2 == (1 # 2) * inject_Z k) by field. rewrite K in E. rewrite Zlt_Qlt in P. change (inject_Z 0) with 0 in P. lra.
Qed.
Print Assumptions C53_defined.
(** Refuted: tiny text stops the conversion of its paragraph with a division by zero. *)
Theorem C53_tiny_refuted : exists flags size, 0 < size /\ run_font flags size = None.
Proof. exists 0%Z, (1 # 4). split; vm_compute; reflexivity. Qed.
Print Assumptions C53_tiny_refuted.
(** Refuted: "superscripts stay superscripts". *)
Theorem C53_superscript_refuted flags size r : run_font flags size = Some r -> rf_superscript r = false.
Proof. unfold run_font. cbv zeta. destruct (qeq _ 0); [discriminate|]. intros H. injection H as <-. reflexivity. Qed.
Print Assumptions C53_superscript_refuted.
(** Refuted: the scale in percent is not always an integer, as Word requires. *)
Theorem C53_scale_integer_refuted : exists flags size r s, run_font flags size = Some r /\ rf_scale r = Some s /\ ~ exists z, 100 * s == inject_Z z.
Proof.
  exists 0%Z, (33 # 10). do 2 eexists. split; [vm_compute; reflexivity|]. split; [vm_compute; reflexivity|]. intros (z & E). unfold Qeq in E. cbn in E. lia.
Qed.
Print Assumptions C53_scale_integer_refuted.
Example C53_ex : exists r, run_font 18 (109 # 10) = Some r /\ rf_bold r = true /\ rf_italic r = true /\ rf_size r == 11.
Proof. eexists. split; [vm_compute; reflexivity|]. split; [reflexivity|]. split; reflexivity. Qed.
