(** C23 (text styles), C24 (strip), C25 (joining lines), C49 (kinds of style). *)
From Verif Require Import GeomModel GeomSpec GeomProof ShapeModel TextModel TextSpec TextProof.
From Coq Require Import Lia Permutation Lqa Sorted.
Open Scope Q_scope.

(* ------------------------------------------------------------------ *)
(** * C23 *)
(** Splitting one span: the parts spell the original, every part has the attributes of
    the original and its styles plus possibly more, no part is empty. *)
Theorem C23_split t s h :
  concat (map ts_text (fst (split_span h t s))) = ts_text t /\
  (forall u, In u (fst (split_span h t s)) -> ts_attrs u = ts_attrs t /\ exists more, ts_style u = ts_style t ++ more) /\
  (ts_chars t <> [] -> forall u, In u (fst (split_span h t s)) -> ts_chars u <> []).
Proof.
  destruct (split_span_shape h t s) as (ps & -> & A & B & C & _). split; [|split; [exact A|exact C]].
  unfold ts_text. rewrite <- B. clear. induction ps as [|u t IH]; cbn; [reflexivity|]. rewrite map_app, IH. reflexivity.
Qed.
Print Assumptions C23_split.
(** For text laid out in one row, exactly the characters more than half covered by the
    shape get the new style (at most one, in the colour of the shape). *)
Theorem C23_exact h t s : proper (sh_bbox s) -> laid_out h (ts_chars t) -> 0 < area (rinter (sh_bbox s) (ts_bbox t)) ->
  exists l m r new, ts_chars t = l ++ m ++ r /\
    (forall c, In c m -> half_covered h (sh_bbox s) c) /\ (forall c, In c (l ++ r) -> ~ half_covered h (sh_bbox s) c) /\
    (new = [] \/ exists k u, new = [mkStyle k (sh_color s) u]) /\
    styled (map SText (fst (split_span h t s))) =
      map (fun c => (GChar c (ts_attrs t), ts_style t)) l ++
      map (fun c => (GChar c (ts_attrs t), ts_style t ++ new)) m ++
      map (fun c => (GChar c (ts_attrs t), ts_style t)) r.
Proof.
  intros P L A. rewrite styled_map_text. apply split_span_exact; try assumption.
  destruct (rect_bool (rinter (sh_bbox s) (ts_bbox t))) eqn:E; [reflexivity|]. exfalso. unfold rect_bool in E. apply negb_false_iff in E.
  rewrite !andb_true_iff in E. destruct E as (((E1 & E2) & E3) & E4). rewrite qeq_iff in E1, E2, E3, E4.
  unfold area, rwidth, rheight in A. rewrite E1, E2, E3, E4 in A. cbn in A. discriminate.
Qed.
Print Assumptions C23_exact.
(** The whole text format step, for any blocks and any sequence of shapes: every line
    keeps its characters (with their boxes and font attributes) and inline images, in
    order; only styles are added. *)
Theorem C23_document bs rects : (forall b l, In b bs -> In l (snd b) -> good_line l) ->
  Forall2 (fun a b => fst b = fst a /\ Forall2 (fun x y => only_styles_added (styled (ln_spans x)) (styled (ln_spans y)) /\ ln_dir y = ln_dir x) (snd a) (snd b))
    bs (fst (blocks_format bs rects)).
Proof.
  intros H. pose proof (blocks_format_ok bs rects H) as F. induction F as [|a b x y (E & L) F IH]; constructor.
  - split; [exact E|]. clear - L. induction L as [|p q ps qs (A & B & _) L IH]; constructor; auto.
  - apply IH. intros c l Hc. apply H. right. exact Hc.
Qed.
Print Assumptions C23_document.
Theorem C23_document_text bs rects : (forall b l, In b bs -> In l (snd b) -> good_line l) ->
  map (fun b => map (fun l => glyphs (ln_spans l)) (snd b)) (fst (blocks_format bs rects)) =
  map (fun b => map (fun l => glyphs (ln_spans l)) (snd b)) bs.
Proof.
  intros H. pose proof (blocks_format_ok bs rects H) as F. clear H. induction F as [|a b x y (E & L) F IH]; [reflexivity|].
  cbn [map]. f_equal; [|exact IH]. clear - L. induction L as [|p q ps qs (A & B & _) L IH]; [reflexivity|].
  cbn [map]. f_equal; [|exact IH]. symmetry. apply ext_fst. exact A.
Qed.
Print Assumptions C23_document_text.
(** Refuted: "exactly the covered characters get the style" without the layout
    hypothesis: a zero-width character counts as inside every shape, so a character
    far from the shape is styled instead of the covered one. *)
Theorem C23_zero_width_refuted :
  exists t s a z b, ts_chars t = [z; a; b] /\ char_in true (sh_bbox s) a = false /\ ~ half_covered true (sh_bbox s) a /\ half_covered true (sh_bbox s) b /\
    map (fun g => (fst g, map st_type (snd g))) (styled (map SText (fst (split_span true t s)))) =
      [(GChar z (ts_attrs t), [R_UNDERLINE]); (GChar a (ts_attrs t), [R_UNDERLINE]); (GChar b (ts_attrs t), [])].
Proof.
  set (z := mkChar 8203 (mkRect 10 0 10 10)). set (a := mkChar 65 (mkRect 10 0 20 10)). set (b := mkChar 66 (mkRect 20 0 30 10)).
  exists (mkTspan [z; a; b] (mkRect 10 0 30 10) [] (mkAttrs 0 12 0 0)), (new_stroke 20 (99 # 10) 30 (99 # 10) (1 # 5) 0 R_UNDEFINED), a, z, b.
  split; [reflexivity|]. split; [vm_compute; reflexivity|].
  assert (P : proper (sh_bbox (new_stroke 20 (99 # 10) 30 (99 # 10) (1 # 5) 0 R_UNDEFINED))) by (vm_compute; split; reflexivity).
  split.
  { rewrite <- char_in_spec; [vm_compute; discriminate|exact P|vm_compute; split; reflexivity]. }
  split.
  { rewrite <- char_in_spec; [vm_compute; reflexivity|exact P|vm_compute; split; reflexivity]. }
  vm_compute. reflexivity.
Qed.
Print Assumptions C23_zero_width_refuted.
(** Refuted: "a span not marked by the shape is left alone": if the shape reaches into
    the span without covering half a character, the span keeps its text but loses the
    covered part (and all to its left) of its box. *)
Theorem C23_box_shrinks_refuted :
  exists t s u, laid_out true (ts_chars t) /\ (forall c, In c (ts_chars t) -> covers (ts_bbox t) (ch_bbox c)) /\
    fst (split_span true t s) = [u] /\ ts_text u = ts_text t /\ ts_style u = ts_style t /\
    exists c, In c (ts_chars u) /\ ~ covers (ts_bbox u) (ch_bbox c).
Proof.
  exists (mkTspan [mkChar 65 (mkRect 10 0 20 10); mkChar 66 (mkRect 20 0 30 10)] (mkRect 10 0 30 10) [] (mkAttrs 0 12 0 0)),
         (new_stroke 26 (99 # 10) 40 (99 # 10) (1 # 5) 0 R_UNDEFINED),
         (mkTspan [mkChar 65 (mkRect 10 0 20 10); mkChar 66 (mkRect 20 0 30 10)] (rround (mkRect 30 0 30 10)) [] (mkAttrs 0 12 0 0)).
  split.
  { split; [exists 0, 10; intros c [<-|[<-|[]]]; vm_compute; repeat split; reflexivity|].
    intros i j a b Hij Ha Hb. destruct i as [|[|i]], j as [|[|j]]; cbn in Ha, Hb; try lia; try discriminate;
      try (injection Ha as <-; injection Hb as <-; vm_compute; discriminate); destruct j; discriminate. }
  split; [intros c [<-|[<-|[]]]; vm_compute; repeat split; discriminate|].
  split; [vm_compute; reflexivity|]. split; [reflexivity|]. split; [reflexivity|].
  eexists. split; [left; reflexivity|]. intros (H & _). vm_compute in H. apply H. reflexivity.
Qed.
Print Assumptions C23_box_shrinks_refuted.
Example C23_ex :
  let c x n := mkChar n (mkRect x 0 (x + 10) 10) in
  let t := mkTspan [c 0 65%Z; c 10 66%Z; c 20 67%Z] (mkRect 0 0 30 10) [] (mkAttrs 0 12 0 0) in
  let s := new_stroke 8 (99 # 10) 22 (99 # 10) (1 # 5) 255 R_UNDEFINED in
  proper (sh_bbox s) /\ laid_out true (ts_chars t) /\ 0 < area (rinter (sh_bbox s) (ts_bbox t)) /\
  map (fun u => (ts_text u, map st_type (ts_style u))) (fst (split_span true t s)) = [([65%Z], []); ([66%Z], [R_UNDERLINE]); ([67%Z], [])].
Proof.
  cbv zeta. split; [vm_compute; split; reflexivity|]. split.
  { split; [exists 0, 10; intros c [<-|[<-|[<-|[]]]]; vm_compute; repeat split; reflexivity|].
    intros i j a b Hij Ha Hb. destruct i as [|[|[|i]]], j as [|[|[|j]]]; cbn in Ha, Hb; try lia; try discriminate;
      try (injection Ha as <-; injection Hb as <-; vm_compute; discriminate); try (destruct j; discriminate); destruct i; discriminate. }
  split; vm_compute; reflexivity.
Qed.

(* ------------------------------------------------------------------ *)
(** * C49: which style a shape stands for *)
(** Height of shape and span across the text and distance from the top of the shape to
    the bottom of the span. *)
Definition across_height (h : bool) (b : rect) : Q := hi h b - lo h b.
Definition below_gap (h : bool) (t : tspan) (s : shape) : Q := Qabs (hi h (ts_bbox t) - lo h (sh_bbox s)).
Lemma qabs_Qabs x : qabs x == Qabs x.
Proof. unfold qabs. destruct (qlt_spec x 0); [rewrite Qabs_neg by lra|rewrite Qabs_pos by lra]; reflexivity. Qed.
(** An undetermined shape over a span makes it highlighted (tall enough, not white, over
    three quarters of the smaller), underlined or struck (thin, near the bottom / the
    middle), or nothing; the entry carries the colour of the shape. *)
Theorem C49_kind h t s : sh_type s = R_UNDEFINED -> proper (ts_bbox t) -> proper (sh_bbox s) ->
  let r := fst (parse_format h t s) in
  let hs := across_height h (ts_bbox t) in let hr := across_height h (sh_bbox s) in let d := below_gap h t s in
  let big := hs / 2 <= hr in
  let over := 0 < area (rinter (ts_bbox t) (sh_bbox s)) /\ (3 # 4) * qmin (area (ts_bbox t)) (area (sh_bbox s)) <= area (rinter (ts_bbox t) (sh_bbox s)) in
  (big /\ sh_color s <> 16777215%Z /\ over -> ts_style r = ts_style t ++ [mkStyle R_HIGHLIGHT (sh_color s) 0]) /\
  (~ big /\ d <= hs / 4 -> ts_style r = ts_style t ++ [mkStyle R_UNDERLINE (sh_color s) 0]) /\
  (~ big /\ (35 # 100) * hs < d < (75 # 100) * hs -> ts_style r = ts_style t ++ [mkStyle R_STRIKE (sh_color s) 0]) /\
  (~ (big /\ sh_color s <> 16777215%Z /\ over) /\ ~ (~ big /\ (d <= hs / 4 \/ (35 # 100) * hs < d < (75 # 100) * hs)) -> r = t).
Proof.
  intros U Pt Ps. cbv zeta. unfold parse_format. rewrite U. unfold across_height, below_gap.
  set (hs := hi h (ts_bbox t) - lo h (ts_bbox t)). set (hr := hi h (sh_bbox s) - lo h (sh_bbox s)).
  set (over := 0 < area (rinter (ts_bbox t) (sh_bbox s)) /\ (3 # 4) * qmin (area (ts_bbox t)) (area (sh_bbox s)) <= area (rinter (ts_bbox t) (sh_bbox s))).
  assert (O : match get_main_bbox (ts_bbox t) (sh_bbox s) FACTOR_MAJOR with Some m => rect_bool m | None => false end = true <-> over).
  { pose proof (overlap_test (3 # 4) (mkLine (ts_bbox t) LEFT_RIGHT [] None false) (mkLine (sh_bbox s) LEFT_RIGHT [] None false) ltac:(reflexivity) Pt Ps) as X.
    unfold overlapping in X. exact X. }
  assert (Hh : 0 < hs) by (unfold hs, hi, lo; destruct Pt; destruct h; lra).
  assert (D : qabs (hi h (ts_bbox t) - lo h (sh_bbox s)) == Qabs (hi h (ts_bbox t) - lo h (sh_bbox s))) by apply qabs_Qabs.
  unfold style_type. fold hs hr. set (d := qabs (hi h (ts_bbox t) - lo h (sh_bbox s))) in *.
  set (d' := Qabs (hi h (ts_bbox t) - lo h (sh_bbox s))) in *. clearbody d d' hs hr.
  destruct (qle_spec ((1 # 2) * hs) hr) as [B|B].
  - assert (Big : hs / 2 <= hr) by (unfold Qdiv; setoid_replace (/ 2) with (1 # 2) by reflexivity; lra).
    split.
    { intros (_ & C & Ov). apply O in Ov. rewrite Ov. destruct (Z.eqb_spec (sh_color s) WHITE) as [E|_]; [destruct (C E)|]. reflexivity. }
    split; [intros (N & _); destruct (N Big)|]. split; [intros (N & _); destruct (N Big)|].
    intros (N & _). destruct (Z.eqb_spec (sh_color s) WHITE) as [E|Ne]; cbn [negb andb]; [rewrite U; reflexivity|].
    match goal with |- context [if ?c then R_HIGHLIGHT else _] => destruct c eqn:G end; [|rewrite U; reflexivity].
    exfalso. apply N. split; [exact Big|]. split; [exact Ne|]. apply O. reflexivity.
  - assert (Nb : ~ hs / 2 <= hr) by (unfold Qdiv; setoid_replace (/ 2) with (1 # 2) by reflexivity; lra).
    split; [intros (X & _); destruct (Nb X)|].
    assert (Q4 : hs / 4 == (1 # 4) * hs) by (unfold Qdiv; setoid_replace (/ 4) with (1 # 4) by reflexivity; lra).
    destruct (qle_spec d ((1 # 4) * hs)) as [L|L].
    + split; [intros _; reflexivity|]. split; [intros (_ & X); exfalso; lra|].
      intros (_ & N). exfalso. apply N. split; [exact Nb|left; lra].
    + split; [intros (_ & X); exfalso; lra|].
      destruct (qlt_spec ((35 # 100) * hs) d), (qlt_spec d ((75 # 100) * hs)); cbn [andb rtype_eqb];
        (split; [intros (_ & X); first [reflexivity|exfalso; lra]|]); intros (_ & N); first [reflexivity|exfalso; apply N; split; [exact Nb|right; lra]].
Qed.
Print Assumptions C49_kind.
(** Hyperlinks always give their uri; table borders and shadings never style text. *)
Theorem C49_hyperlink h t s : sh_type s = R_HYPERLINK -> ts_style (fst (parse_format h t s)) = ts_style t ++ [mkStyle R_HYPERLINK (sh_color s) (sh_uri s)].
Proof. intros U. unfold parse_format. rewrite U. reflexivity. Qed.
Print Assumptions C49_hyperlink.
Theorem C49_no_border_style h t s : sh_type s = R_BORDER \/ sh_type s = R_SHADING -> parse_format h t s = (t, s).
Proof. intros [U|U]; unfold parse_format; rewrite U; reflexivity. Qed.
Print Assumptions C49_no_border_style.
(** A shape determined as text style, border or shading is not applied to later blocks. *)
Theorem C49_determined_once bb ls s : sh_type s <> R_UNDEFINED -> sh_type s <> R_HYPERLINK -> block_format bb ls [s] = (ls, [s]).
Proof.
  intros N1 N2. cbn [block_format]. unfold applicable. destruct (sh_type s); try reflexivity; [destruct N1; reflexivity|destruct N2; reflexivity].
Qed.
Print Assumptions C49_determined_once.
(** Refuted: "a style shape is used for one block only": a line drawn under the first
    line of a block also cuts the (tightly set) second line, where it means nothing; the
    shape becomes undetermined again, is offered to the next block and strikes its text. *)
Theorem C49_reused_refuted :
  exists s b1 b2 b1' b2' s', sh_type s = R_UNDEFINED /\ blocks_format [b1; b2] [s] = ([b1'; b2'], [s']) /\
    In R_UNDERLINE (flat_map (fun l => flat_map (fun g => map st_type (snd g)) (styled (ln_spans l))) (snd b1')) /\
    In R_STRIKE (flat_map (fun l => flat_map (fun g => map st_type (snd g)) (styled (ln_spans l))) (snd b2')).
Proof.
  set (mk := fun y0 y1 => mkLine (mkRect 0 y0 10 y1) LEFT_RIGHT [SText (mkTspan [mkChar 65 (mkRect 0 y0 10 y1)] (mkRect 0 y0 10 y1) [] (mkAttrs 0 12 0 0))] None false).
  exists (new_stroke 0 (101 # 10) 10 (101 # 10) (1 # 5) 0 R_UNDEFINED), (mkRect 0 0 10 18, [mk 0 10; mk 8 18]), (mkRect 0 5 10 15, [mk 5 15]).
  match goal with |- context [blocks_format ?a ?b] => destruct (blocks_format a b) as [r q] eqn:E end. vm_compute in E.
  injection E as <- <-. eexists. eexists. eexists. split; [reflexivity|]. split; [reflexivity|]. cbn. split; auto.
Qed.
Print Assumptions C49_reused_refuted.
Example C49_ex : let t := mkTspan [mkChar 65 (mkRect 0 0 10 10)] (mkRect 0 0 10 10) [] (mkAttrs 0 12 0 0) in
  map st_type (ts_style (fst (parse_format true t (new_fill (mkRect 0 0 10 10) 255 R_UNDEFINED)))) = [R_HIGHLIGHT] /\
  map st_type (ts_style (fst (parse_format true t (new_stroke 0 5 10 5 (1 # 5) 255 R_UNDEFINED)))) = [R_STRIKE] /\
  map st_type (ts_style (fst (parse_format true t (new_stroke 0 7 10 7 (1 # 5) 255 R_UNDEFINED)))) = [].
Proof. vm_compute. auto. Qed.

(* ------------------------------------------------------------------ *)
(** * C24 *)
(** strip() only removes white space, from the two ends. *)
Theorem C24_only_white ss : exists pre suf, styled ss = pre ++ styled (fst (spans_strip ss)) ++ suf /\
  (forall g, In g (pre ++ suf) -> white_glyph g) /\ (snd (spans_strip ss) = true <-> pre ++ suf <> []).
Proof.
  assert (R : forall t, exists suf, styled [SText t] = styled [SText (fst (span_rstrip t))] ++ suf /\ (forall g, In g suf -> white_glyph g) /\ (snd (span_rstrip t) = true <-> suf <> [])).
  { intros t. pose proof (rstrip_spec t) as S. destruct (span_rstrip t) as [t' []]; cbn [fst snd].
    - destruct S as (_ & A & St & rest & w & suf & E & E' & N & W & _). exists (map (fun c => (GChar c (ts_attrs t), ts_style t)) suf).
      unfold styled. cbn [flat_map span_glyphs]. rewrite !app_nil_r, A, St, E', E, <- map_app, <- app_assoc. split; [reflexivity|].
      split; [intros g Hg; apply in_map_iff in Hg; destruct Hg as (c & <- & Hc); apply W; exact Hc|].
      split; [intros _ H; apply N; destruct suf; [reflexivity|discriminate]|reflexivity].
    - destruct S as (-> & _). exists []. rewrite app_nil_r. split; [reflexivity|]. split; [intros g []|]. split; [discriminate|congruence]. }
  assert (Rl : exists suf, styled ss = styled (fst (at_last (strip_with span_rstrip) ss)) ++ suf /\ (forall g, In g suf -> white_glyph g) /\
     (snd (at_last (strip_with span_rstrip) ss) = true <-> suf <> [])).
  { pose proof (at_last_spec (strip_with span_rstrip) ss) as S. destruct ss as [|s0 st].
    - exists []. split; [reflexivity|]. split; [intros g []|]. cbn. split; [discriminate|congruence].
    - destruct S as (pre & s & E & H). rewrite H, E. cbn [fst snd]. destruct s as [t|k b].
      + destruct (R t) as (suf & R1 & R2 & R3). exists suf. rewrite !styled_app, R1. unfold strip_with. destruct (span_rstrip t) as [t' b']. cbn [fst snd] in *.
        rewrite <- app_assoc. split; [reflexivity|]. split; assumption.
      + exists []. cbn [strip_with fst snd]. rewrite app_nil_r. split; [reflexivity|]. split; [intros g []|]. split; [discriminate|congruence]. }
  unfold spans_strip. destruct ss as [|s t].
  { exists [], []. split; [reflexivity|]. split; [intros g []|]. cbn. split; [discriminate|congruence]. }
  destruct s as [x|k b]; cbn [strip_with].
  - pose proof (lstrip_spec x) as S. destruct (span_lstrip x) as [x' []].
    + destruct S as (_ & A & St & pre & w & rest & E & E' & N & W & _). exists (map (fun c => (GChar c (ts_attrs x), ts_style x)) pre), [].
      cbn [fst snd]. unfold styled. cbn [flat_map span_glyphs]. rewrite A, St, E', E, !app_nil_r, map_app, <- app_assoc. split; [reflexivity|].
      split; [intros g Hg; apply in_map_iff in Hg; destruct Hg as (c & <- & Hc); apply W; exact Hc|].
      split; [intros _ H; apply N; destruct pre; [reflexivity|discriminate]|reflexivity].
    + destruct S as (-> & _). destruct Rl as (suf & R1 & R2 & R3). exists [], suf. split; [exact R1|]. split; assumption.
  - destruct Rl as (suf & R1 & R2 & R3). exists [], suf. split; [exact R1|]. split; assumption.
Qed.
Print Assumptions C24_only_white.
(** Left side: two or more blanks at the start leave exactly one white character. *)
Theorem C24_left t ss tx : ts_text t = (32 :: 32 :: tx)%Z ->
  exists t' w rest, fst (spans_strip (SText t :: ss)) = SText t' :: ss /\ ts_text t' = w :: rest /\ is_white w = true /\
    match rest with [] => True | c :: _ => is_white c = false end.
Proof.
  intros H0. assert (H : starts_two_blanks (ts_text t) = true) by (rewrite H0; reflexivity). clear H0.
  pose proof (lstrip_spec t) as S. unfold spans_strip, strip_with. destruct (span_lstrip t) as [t' []]; [|destruct S; congruence].
  destruct S as (_ & _ & _ & pre & w & rest & E & E' & N & W & Ww & R). exists t', (ch_c w), (map ch_c rest).
  split; [reflexivity|]. split; [unfold ts_text; rewrite E'; reflexivity|]. split; [exact Ww|]. destruct rest; [exact I|exact R].
Qed.
Print Assumptions C24_left.
(** Right side, if the left side needs no stripping. *)
Theorem C24_right ss t tx : (forall x r ty, ss ++ [SText t] = SText x :: r -> ts_text x <> (32 :: 32 :: ty)%Z) ->
  ts_text t = (tx ++ [32; 32])%Z ->
  exists t' w rest, fst (spans_strip (ss ++ [SText t])) = ss ++ [SText t'] /\ ts_text t' = rest ++ [w] /\ is_white w = true /\
    match rev rest with [] => True | c :: _ => is_white c = false end.
Proof.
  intros L0 H0. assert (H : starts_two_blanks (rev (ts_text t)) = true) by (rewrite H0, rev_app_distr; reflexivity). clear H0.
  assert (L : match ss ++ [SText t] with SText x :: _ => starts_two_blanks (ts_text x) = false | _ => True end).
  { destruct (ss ++ [SText t]) as [|[x|k b] r] eqn:E; [exact I| |exact I]. destruct (starts_two_blanks (ts_text x)) eqn:Sb; [|reflexivity].
    exfalso. destruct (ts_text x) as [|a [|b ty]] eqn:Tx; try discriminate. cbn in Sb. apply andb_true_iff in Sb. destruct Sb as (A & B).
    apply Z.eqb_eq in A, B. subst a b. exact (L0 x r ty eq_refl Tx). }
  pose proof (rstrip_spec t) as S.
  assert (K : spans_strip (ss ++ [SText t]) = at_last (strip_with span_rstrip) (ss ++ [SText t])).
  { unfold spans_strip. destruct (ss ++ [SText t]) as [|[x|k b] r] eqn:E; [reflexivity| |reflexivity].
    cbn [strip_with]. pose proof (lstrip_spec x) as Sx. destruct (span_lstrip x) as [x' []]; [|reflexivity]. destruct Sx; congruence. }
  rewrite K. pose proof (at_last_spec (strip_with span_rstrip) (ss ++ [SText t])) as A.
  destruct (ss ++ [SText t]) as [|y r] eqn:E; [destruct ss; discriminate|]. destruct A as (pre & s & E2 & A). rewrite A. cbn [fst].
  rewrite E2 in E. apply app_inj_tail in E. destruct E as (<- & <-). cbn [strip_with].
  destruct (span_rstrip t) as [t' []]; [|destruct S; congruence].
  destruct S as (_ & _ & _ & rest & w & suf & E & E' & N & W & Ww & R). exists t', (ch_c w), (map ch_c rest).
  split; [reflexivity|]. split; [unfold ts_text; rewrite E', map_app; reflexivity|]. split; [exact Ww|].
  rewrite <- map_rev. destruct (rev rest); [exact I|exact R].
Qed.
Print Assumptions C24_right.
(** Refuted: "both sides are stripped": after stripping the left side, the right side
    keeps its blanks (short-circuit [or]). *)
Theorem C24_both_sides_refuted : exists t, starts_two_blanks (ts_text t) = true /\ starts_two_blanks (rev (ts_text t)) = true /\
  exists t', fst (spans_strip [SText t]) = [SText t'] /\ starts_two_blanks (rev (ts_text t')) = true.
Proof.
  exists (mkTspan (map (fun c => mkChar c (mkRect 0 0 10 10)) [32; 32; 65; 32; 32]%Z) (mkRect 0 0 10 10) [] (mkAttrs 0 12 0 0)).
  split; [reflexivity|]. split; [reflexivity|]. eexists. split; [reflexivity|reflexivity].
Qed.
Print Assumptions C24_both_sides_refuted.
Example C24_ex : let t := mkTspan (map (fun c => mkChar c (mkRect 0 0 10 10)) [32; 32; 32; 65; 32; 66]%Z) (mkRect 0 0 10 10) [] (mkAttrs 0 12 0 0) in
  match fst (spans_strip [SText t]) with [SText u] => ts_text u = [32; 65; 32; 66]%Z | _ => False end.
Proof. vm_compute. reflexivity. Qed.

(* ------------------------------------------------------------------ *)
(** * C25 *)
(** Sorting before joining keeps all lines. *)
Theorem C25_sort_keeps ls : Permutation ls (lines_sort ls).
Proof. apply lines_sort_perm. Qed.
Print Assumptions C25_sort_keeps.
(** For text in clear rows the order is: row by row, and within a row by the left edge
    (by the bottom edge for vertical text). *)
Theorem C25_sort_rows ls rows : Permutation ls (concat rows) -> clear_rows (is_horizontal (lines_dir ls)) rows ->
  let pos := fun l => if is_horizontal (lines_dir ls) then rx0 (ln_bbox l) else ry1 (ln_bbox l) in
  exists rows', lines_sort ls = concat rows' /\
    Forall2 (fun r r' => Permutation r r' /\ StronglySorted (fun a b => pos a <= pos b) r') rows rows'.
Proof. exact (lines_sort_rows ls rows). Qed.
Print Assumptions C25_sort_rows.
(** The resulting lines carry, in order, the spans of all sorted lines except those
    overlapping their predecessor; each resulting line is a group of consecutive kept
    lines pairwise in one row, each close to its predecessor. *)
Theorem C25_join thr merging ls l0 rest : 1 # 1000000 < thr -> (forall l, In l ls -> normal_line l) -> lines_sort ls = l0 :: rest ->
  exists kept groups, kept_lines thr l0 rest kept /\ concat groups = l0 :: kept /\
    Forall2 joined_from (lines_join thr merging ls) groups /\
    (forall g, In g groups -> good_group merging (lines_sort ls) g).
Proof.
  intros T N E. unfold lines_join. rewrite E.
  assert (N' : forall l, In l (l0 :: rest) -> normal_line l) by (rewrite <- E; intros l Hl; apply N; eapply Permutation_in; [apply Permutation_sym, lines_sort_perm|exact Hl]).
  destruct (join_loop_spec thr merging (l0 :: rest) T N' rest 0 l0 [l0] [] []) as (K & gs & K1 & K2 & K3 & K4 & K5).
  - reflexivity.
  - reflexivity.
  - intros x [<-|[]]. left. reflexivity.
  - right. split; [apply (single_good merging (l0 :: rest) l0)|intros b []].
  - constructor.
  - intros g [].
  - intros r [].
  - exists K, gs. split; [exact K1|]. split; [exact K2|]. rewrite keep_all by exact K5. split; assumption.
Qed.
Print Assumptions C25_join.
(** In particular, without overlapping lines every span survives, in reading order. *)
Theorem C25_nothing_lost thr merging ls : 1 # 1000000 < thr -> (forall l, In l ls -> normal_line l) ->
  (forall i a b, nth_error (lines_sort ls) i = Some a -> nth_error (lines_sort ls) (S i) = Some b -> ~ overlapping thr b a) ->
  flat_map ln_spans (lines_join thr merging ls) = flat_map ln_spans (lines_sort ls).
Proof.
  intros T N H. destruct (lines_sort ls) as [|l0 rest] eqn:E.
  { unfold lines_join. rewrite E. reflexivity. }
  destruct (C25_join thr merging ls l0 rest T N E) as (K & gs & K1 & K2 & K3 & _).
  assert (Kr : K = rest).
  { clear - K1 H. revert H. generalize l0 K1. clear. intros l0 K1. induction K1 as [pre|pre l t k O K1 IH|pre l t k O K1 IH]; intros H; [reflexivity| |].
    - exfalso. apply (H 0%nat pre l); [reflexivity|reflexivity|exact O].
    - f_equal. apply IH. intros i a b Ha Hb. apply (H (S i) a b); assumption. }
  subst K. rewrite <- K2. clear - K3. induction K3 as [|r g out gs (J & _) F IH]; [reflexivity|].
  cbn [flat_map concat]. rewrite flat_map_app, IH, J, (flat_map_concat_map ln_spans g). reflexivity.
Qed.
Print Assumptions C25_nothing_lost.
(** One row of lines, each close to its left neighbour and none overlapping it, becomes
    one line with all the spans, left to right. *)
Theorem C25_row_joined thr merging ls : 1 # 1000000 < thr -> (forall l, In l ls -> normal_line l) -> ls <> [] ->
  row_pairs (lines_sort ls) ->
  (forall i a b, nth_error (lines_sort ls) i = Some a -> nth_error (lines_sort ls) (S i) = Some b ->
     ~ overlapping thr b a /\ Qabs (rx0 (ln_bbox b) - rx1 (ln_bbox a)) <= merging) ->
  exists r, lines_join thr merging ls = [r] /\ ln_spans r = flat_map ln_spans (lines_sort ls).
Proof.
  intros T N Ne R H.
  assert (N' : forall l, In l (lines_sort ls) -> normal_line l) by (intros l Hl; apply N; eapply Permutation_in; [apply Permutation_sym, lines_sort_perm|exact Hl]).
  assert (Ne' : lines_sort ls <> []) by (intros E; apply Ne; apply Permutation_nil; rewrite <- E; apply Permutation_sym, lines_sort_perm).
  unfold lines_join. destruct (lines_sort ls) as [|l0 rest] eqn:E; [congruence|]. clear E Ne Ne' N.
  assert (J : forall t pre cand, l0 :: rest = cand ++ t -> (exists c0, cand = c0 ++ [pre]) ->
     join_loop thr merging pre t cand [] = keep_lines (merged_line (l0 :: rest))).
  { induction t as [|l t IH]; intros pre cand Ec (c0 & Ep); cbn [join_loop].
    - rewrite app_nil_r in Ec. rewrite Ec. reflexivity.
    - assert (Hl : nth_error (l0 :: rest) (length cand) = Some l) by (rewrite Ec, nth_error_app2, Nat.sub_diag by lia; reflexivity).
      assert (Hp : nth_error (l0 :: rest) (length c0) = Some pre).
      { rewrite Ec, Ep, <- app_assoc, nth_error_app2, Nat.sub_diag by lia. reflexivity. }
      assert (Lc : length cand = S (length c0)) by (rewrite Ep, app_length; cbn [length]; lia).
      destruct (H (length c0) pre l Hp) as (No & Cl); [rewrite <- Lc; exact Hl|].
      destruct (match get_main_bbox (ln_bbox l) (ln_bbox pre) thr with Some m => rect_bool m | None => false end) eqn:O.
      { exfalso. apply No. apply (overlap_test thr l pre T); [apply N'; eapply nth_error_In; exact Hl|apply N'; eapply nth_error_In; exact Hp|exact O]. }
      rewrite (R (length c0) (length cand) pre l ltac:(lia) Hp Hl). cbn [negb orb].
      destruct (qlt_spec merging (qabs (rx0 (ln_bbox l) - rx1 (ln_bbox pre)))) as [B|_]; [exfalso; rewrite qabs_Qabs in B; lra|].
      destruct (forallb (same_row l) cand) eqn:F.
      + apply IH; [rewrite <- app_assoc; exact Ec|]. exists cand. reflexivity.
      + exfalso. assert (X : forallb (same_row l) cand = true); [|congruence]. apply forallb_forall. intros x Hx.
        destruct (In_nth_error _ _ Hx) as [i Hi]. apply (R i (length cand) x l); [apply nth_error_Some; congruence| |exact Hl].
        rewrite Ec, nth_error_app1; [exact Hi|apply nth_error_Some; congruence]. }
  destruct (merged_joined (l0 :: rest) ltac:(discriminate) N') as (r & Er & Jr & Br).
  exists r. rewrite (J rest l0 [l0] eq_refl); [|exists []; reflexivity].
  rewrite Er. cbn [keep_lines filter]. rewrite Br. cbn [filter]. rewrite Br. split; [reflexivity|].
  rewrite (proj1 Jr), flat_map_concat_map. reflexivity.
Qed.
Print Assumptions C25_row_joined.
Definition ex_line (k : nat) (x0 y0 x1 y1 : Q) : line :=
  mkLine (mkRect x0 y0 x1 y1) LEFT_RIGHT [SImage k (mkRect x0 y0 x1 y1)] None false.
(** Refuted: "a dropped line overlaps a line that is kept": C overlaps only B, which was
    itself dropped. *)
Theorem C25_chain_drop_refuted : exists a b c thr merging, 1 # 1000000 < thr /\
  area (rinter (ln_bbox c) (ln_bbox a)) == 0 /\ lines_join thr merging [a; b; c] = [a].
Proof.
  exists (ex_line 1 0 0 10 10), (ex_line 2 1 0 19 10), (ex_line 3 10 0 20 10), (9 # 10), 0. split; [reflexivity|]. split; vm_compute; reflexivity.
Qed.
Print Assumptions C25_chain_drop_refuted.
(** Refuted: "adjacent lines of one row are joined": in any row but the first one, the
    first line is released at once and never joined to its right neighbour. *)
Theorem C25_second_row_refuted : exists a b c thr merging, 1 # 1000000 < thr /\
  same_row c b = true /\ rx0 (ln_bbox c) == rx1 (ln_bbox b) /\ 0 < merging /\
  lines_join thr merging [b; c] = merged_line [b; c] /\ lines_join thr merging [a; b; c] = [a; b; c].
Proof.
  exists (ex_line 1 0 0 10 10), (ex_line 2 0 20 10 30), (ex_line 3 10 20 20 30), (9 # 10), 2. split; [reflexivity|]. split; [reflexivity|]. split; [reflexivity|]. split; [reflexivity|]. split; vm_compute; reflexivity.
Qed.
Print Assumptions C25_second_row_refuted.
(** Refuted: "joined lines read in text order" for vertical text: bottom-to-top text is
    read from the bottom, but the upper line is put first. *)
Theorem C25_vertical_order_refuted : exists first second thr merging,
  ln_dir first = BOTTOM_TOP /\ ln_dir second = BOTTOM_TOP /\ ry1 (ln_bbox second) == ry0 (ln_bbox first) /\
  same_row first second = true /\ exists r, lines_join thr merging [first; second] = [r] /\ ln_spans r = ln_spans second ++ ln_spans first.
Proof.
  exists (mkLine (mkRect 0 10 10 20) BOTTOM_TOP [SImage 1 (mkRect 0 10 10 20)] None false),
         (mkLine (mkRect 0 0 10 10) BOTTOM_TOP [SImage 2 (mkRect 0 0 10 10)] None false), (9 # 10), 20.
  split; [reflexivity|]. split; [reflexivity|]. split; [reflexivity|]. split; [reflexivity|]. eexists. split; vm_compute; reflexivity.
Qed.
Print Assumptions C25_vertical_order_refuted.
Example C25_rows_ex : clear_rows true [[ex_line 3 10 0 20 10; ex_line 1 0 0 10 10]; [ex_line 2 100 20 110 30]].
Proof.
  split.
  - intros r [<-|[<-|[]]]; (split; [discriminate|]); intros a b Ha Hb; repeat (destruct Ha as [<-|Ha]); try destruct Ha; repeat (destruct Hb as [<-|Hb]); try destruct Hb; reflexivity.
  - constructor; [|constructor; [constructor|constructor]]. constructor; [|constructor].
    intros a b Ha Hb. repeat (destruct Ha as [<-|Ha]); try destruct Ha; repeat (destruct Hb as [<-|Hb]); try destruct Hb; split; reflexivity.
Qed.
Example C25_ex : let ls := [ex_line 3 10 0 20 10; ex_line 1 0 0 10 10; ex_line 2 100 20 110 30] in
  (forall l, In l ls -> normal_line l) /\ map (fun l => length (ln_spans l)) (lines_join (9 # 10) 2 ls) = [2; 1]%nat.
Proof.
  cbv zeta. split; [|vm_compute; reflexivity]. intros l H.
  assert (D : forall z, decimal 10 (inject_Z z)) by (intros z; exists (10 * z)%Z; rewrite inject_Z_mult; field).
  repeat (destruct H as [<-|H]; [split; [vm_compute; split; reflexivity|]; split; [repeat split; apply D|]; intros s [<-|[]]; split; [vm_compute; split; discriminate|]; split; [repeat split; apply D|reflexivity]|]).
  destruct H.
Qed.
