(** C80: pages that are shown turned. *)
From Verif Require Import RotSpec StoreSpec StoreProof StoreProps RotProof ParaProof.
From Coq Require Import Lia Lqa.
Open Scope Q_scope.
Open Scope list_scope.

Ltac rp := match goal with |- context[restore_page ?a ?b ?c ?d ?e] => destruct (restore_page a b c d e) end.
(** C80: whatever was parsed or restored before and after, in whatever order, from
    whatever documents with whatever rotations, and in whatever state the process was:
    a page holds what reading it alone gives, as long as nothing was loaded into that page afterwards. *)
Theorem C80_history : forall tl wr pdf s before after k q,
  restore_page tl wr (src_matrix (pdf k)) (src_raw (pdf k)) new_page = Some q ->
  (forall o, In o after -> concerns k o = false) ->
  let p := pr_page (run tl wr pdf s (before ++ Parse k true :: after)) k in
  p_blocks p = p_blocks q /\ p_shapes p = p_shapes q /\ p_id p = p_id q /\ p_width p = p_width q /\ p_height p = p_height q /\ p_margin p = p_margin q.
Proof.
  intros tl wr pdf s before after k q E H. cbv zeta. unfold run. rewrite fold_left_app. cbn [fold_left].
  set (s0 := fold_left _ before s). cbn [run_op].
  assert (Er : restore_page tl wr (src_matrix (pdf k)) (src_raw (pdf k)) (pr_page s0 k) =
    Some (mkPage (p_id q) (p_width q) (p_height q) (p_margin q) (p_blocks q) (p_floats (pr_page s0 k)) (p_shapes q))).
  { unfold restore_page in E |- *. destruct (as_dict (src_raw (pdf k))) as [d|]; [|discriminate]. cbn [bind] in E |- *.
    destruct (as_list (get "blocks" (PList []) d)) as [l|]; [|discriminate]. cbn [bind] in E |- *.
    destruct (mapo _ l) as [bs|]; [|discriminate]. cbn [bind] in E |- *.
    destruct (as_list (get "shapes" (PList []) d)) as [l'|]; [|discriminate]. cbn [bind] in E |- *.
    destruct (mapo _ l') as [ss|]; [|discriminate]. cbn [bind] in E |- *. injection E as <-. reflexivity. }
  rewrite Er. set (p := mkPage _ _ _ _ _ _ _).
  assert (G : forall os s', (forall o, In o os -> concerns k o = false) -> pr_page s' k = p ->
    pr_page (fold_left (run_op tl wr pdf) os s') k = p).
  { induction os as [|o os IH]; intros s' Ho Hs; [exact Hs|]. cbn [fold_left]. apply IH; [intros x Hx; apply Ho; right; exact Hx|].
    specialize (Ho o (or_introl eq_refl)). destruct o as [i [|]|i v]; cbn [concerns run_op] in *; [| exact Hs |].
    - rp; [|exact Hs]. cbn [pr_page]. unfold put. rewrite Nat.eqb_sym, Ho. exact Hs.
    - rp; [|exact Hs]. cbn [pr_page]. unfold put. rewrite Nat.eqb_sym, Ho. exact Hs. }
  rewrite (G after _ H); [repeat split|]. cbn [pr_page]. unfold put. rewrite Nat.eqb_refl. reflexivity.
Qed.
Print Assumptions C80_history.

(** C80: reading a turned page gives the page that an upright page gives whose boxes and
    directions are those seen on the turned page (texts, pictures, tables in any nesting),
    provided no font is nameless. *)
Theorem C80_as_seen : forall tl wr r w h raw old, fonts_named raw ->
  option_map bare_page (restore_page tl wr (rotation_matrix r w h) raw old) =
  option_map bare_page (restore_page tl wr identity (turned r w h raw) old).
Proof. intros. apply page_turned. assumption. Qed.
Print Assumptions C80_as_seen.

(** C80: a character is put where it is seen: the rounded box of a character contains
    (before rounding) exactly the points at which the points of its box are seen. *)
Theorem C80_character : forall r w h b c o ch,
  new_char (rotation_matrix r w h) (PDict [("bbox", py_rect b); ("c", PStr c); ("origin", o)]) = Some ch ->
  exists b', seen_box r w h b b' /\ c_box ch = rround b' /\ c_c ch = c.
Proof.
  intros r w h b c o ch E. unfold new_char in E. cbn [as_dict bind] in E.
  change (get "c" (PStr "") [("bbox", py_rect b); ("c", PStr c); ("origin", o)]) with (PStr c) in E. cbn [as_str bind] in E.
  unfold element_box in E. change (assoc "bbox" [("bbox", py_rect b); ("c", PStr c); ("origin", o)]) with (Some (py_rect b)) in E.
  cbn [bind] in E. destruct b as [x0 y0 x1 y1]. unfold py_rect in E. cbn [as_rect rx0 ry0 rx1 ry1 bind] in E. injection E as <-. cbn [c_box c_c].
  exists (rmul (mkRect x0 y0 x1 y1) (rotation_matrix r w h)). split; [|split; reflexivity].
  destruct (turn_spec r w h x0 y0 x1 y1) as (b & Eb & (H1 & H2 & H3 & H4)). intros [x y]. unfold inside. rewrite H1, H2, H3, H4.
  unfold turn_box, py_rect in Eb. cbn [as_rect rx0 ry0 rx1 ry1] in Eb.
  destruct r; cbn [seen fst snd rx0 ry0 rx1 ry1] in *; injection Eb as E1 E2 E3 E4; rewrite <- E1, <- E2, <- E3, <- E4; lra.
Qed.
Print Assumptions C80_character.
(** The whole page is seen in the turned page. *)
Theorem C80_whole_page : forall r w h p, inside p (mkRect 0 0 w h) <-> inside (seen r w h p) (mkRect 0 0 (fst (seen_size r w h)) (snd (seen_size r w h))).
Proof. intros r w h [x y]. unfold inside. destruct r; cbn [seen seen_size fst snd rx0 ry0 rx1 ry1]; lra. Qed.
Print Assumptions C80_whole_page.

(** C80: text counts as running left to right, bottom to top, or otherwise, as it is seen. *)
Theorem C80_direction : forall tl wr r w h d l dict, assoc "dir" dict = Some (py_point d) ->
  new_line tl wr (rotation_matrix r w h) (PDict dict) = Some l ->
  (text_direction (l_dir l) = LeftRight <-> fst (seen_arrow r d) == 1) /\
  (text_direction (l_dir l) = BottomTop <-> ~ fst (seen_arrow r d) == 1 /\ snd (seen_arrow r d) == -1).
Proof.
  intros tl wr r w h d l dict Ed E. unfold new_line in E. cbn [as_dict bind] in E. rewrite Ed in E. unfold py_point in E. cbn [as_point bind] in E.
  destruct (as_list (get "spans" (PList []) dict)) as [sr|]; [|discriminate]. cbn [bind] in E.
  destruct (mapo _ sr) as [sp|]; [|discriminate]. cbn [bind] in E. apply (f_equal (fun o => match o with Some z => l_dir z | None => l_dir l end)) in E.
  cbn [l_dir] in E. rewrite <- E. clear E. destruct d as [x y]. cbn [fst snd]. rewrite dir_turned. rewrite dir_identity. unfold text_direction. cbn [fst snd].
  destruct (seen_arrow r (x, y)) as [a b]. cbn [fst snd].
  destruct (qeq_spec (Qred a) 1) as [H1|H1]; rewrite Qred_correct in H1.
  - split; split; try discriminate; try tauto. 
  - destruct (qeq_spec (Qred b) (-1)) as [H2|H2]; rewrite Qred_correct in H2; (split; split; try discriminate; try tauto).
Qed.
Print Assumptions C80_direction.

(** C80: in a process that read upright pages only (any number, in any order, failing or
    not), restoring a stored page gives that page back. *)
Theorem C80_restore_upright : forall tl wr pdf os k p,
  (forall i, exists w h, src_matrix (pdf i) = rotation_matrix R0 w h) ->
  settled_page p -> p_floats p = [] -> (forall o, In o os -> concerns k o = false) ->
  pr_page (run tl wr pdf started (os ++ [Restore k (store_page p)])) k = p.
Proof.
  intros tl wr pdf os k p U Hs Hf Ho. unfold run. rewrite fold_left_app. cbn [fold_left].
  assert (G : forall os s, pr_matrix s = identity -> pr_matrix (fold_left (run_op tl wr pdf) os s) = identity).
  { clear - U. induction os as [|o os IH]; intros s Hm; [exact Hm|]. cbn [fold_left]. apply IH.
    destruct o as [i [|]|i v]; cbn [run_op]; [| exact Hm |].
    - destruct (U i) as (w & h & E). rp; cbn [pr_matrix]; rewrite E; reflexivity.
    - rp; exact Hm. }
  assert (N : forall os s, (forall o, In o os -> concerns k o = false) -> pr_page s k = new_page ->
    pr_page (fold_left (run_op tl wr pdf) os s) k = new_page).
  { clear. induction os as [|o os IH]; intros s' Ho Hs; [exact Hs|]. cbn [fold_left]. apply IH; [intros x Hx; apply Ho; right; exact Hx|].
    specialize (Ho o (or_introl eq_refl)). destruct o as [i [|]|i v]; cbn [concerns run_op] in *; [| exact Hs |].
    - rp; [|exact Hs]. cbn [pr_page]. unfold put. rewrite Nat.eqb_sym, Ho. exact Hs.
    - rp; [|exact Hs]. cbn [pr_page]. unfold put. rewrite Nat.eqb_sym, Ho. exact Hs. }
  set (s := fold_left _ os started). cbn [run_op].
  assert (M : pr_matrix s = identity) by (apply G; reflexivity).
  assert (P : pr_page s k = new_page) by (apply N; [exact Ho|reflexivity]).
  rewrite M, P. destruct (C13_settled_identity tl wr p Hs) as [_ R]. rewrite (R Hf). cbn [pr_page]. unfold put. rewrite Nat.eqb_refl. reflexivity.
Qed.
Print Assumptions C80_restore_upright.

(* ---------------- examples ---------------- *)
(** An A4 page with one line of text running upwards, shown turned: the text is seen
    running to the right. *)
Definition rt_char (c : string) (y : Q) : pyval := PDict [("bbox", py_rect (mkRect 100 (y - 6) 112 y)); ("c", PStr c); ("origin", py_point (110, y))].
Definition rt_span (font : string) : pyval :=
  PDict [("bbox", py_rect (mkRect 100 494 112 506)); ("font", PStr font); ("size", PNum 12); ("chars", PList [rt_char "H" 506; rt_char "i" 500])].
Definition rt_raw (font : string) : pyval :=
  PDict [("id", PNum 0); ("width", PNum 842); ("height", PNum 595);
         ("blocks", PList [PDict [("type", PNum 0); ("bbox", py_rect (mkRect 100 494 112 506));
            ("lines", PList [PDict [("dir", py_point (0, -1)); ("spans", PList [rt_span font])]])]]);
         ("shapes", PList [])].
Definition rt_pdf (k : nat) : source :=
  match k with O => mkSource (rotation_matrix R90 595 842) (rt_raw "Arial") | _ => mkSource (rotation_matrix R0 595 842) (rt_raw "Arial") end.
Example C80_nonvacuous : forall tl wr, fonts_named (rt_raw "Arial") /\
  (exists q, restore_page tl wr (src_matrix (rt_pdf 0)) (src_raw (rt_pdf 0)) new_page = Some q /\
    map block_box (p_blocks q) = [rround (mkRect 336 100 348 112)] /\
    map (fun b => match b with TextB _ _ _ [l] => text_direction (l_dir l) | _ => Ignore end) (p_blocks q) = [LeftRight]) /\
  concerns 0 (Parse 1 true) = false /\ concerns 0 (Parse 0 false) = false.
Proof.
  intros tl wr. split.
  - lazy -[unnamed]. repeat split; intros f E; try discriminate; injection E as <-; vm_compute; reflexivity.
  - split; [|split; reflexivity]. eexists. split; [vm_compute; reflexivity|]. split; vm_compute; reflexivity.
Qed.

(** Finding (C80): a vector graphic is found on the picture of the turned page and then
    turned again: one that is seen near the right edge of a landscape page gets below its lower edge. *)
Theorem C80_graphics_refuted : exists r w h c, seen_size r w h = (842, 595) /\
  (forall p, inside p c -> inside p (mkRect 0 0 842 595)) /\
  forall tl wr png, exists b, new_block tl wr 1 (rotation_matrix r w h) (graphic c png) = Some (Some b) /\
    ~ ry0 (block_box b) < 595.
Proof.
  exists R90, 595, 842, (mkRect 600 100 700 200). split; [reflexivity|]. split.
  - intros [x y]. unfold inside. cbn [rx0 ry0 rx1 ry1 fst snd]. lra.
  - intros tl wr png. eexists. split; [vm_compute; reflexivity|]. vm_compute. discriminate.
Qed.
Print Assumptions C80_graphics_refuted.

(** Finding (C80): a text in a nameless font is measured from its baseline on the page
    that is not turned, so on a turned page it is moved: here from y = 100 to y > 400,
    whatever the fonts measure, as long as the measured rectangle holds the baseline
    and is at most twice as high as the font. *)
Theorem C80_nameless_refuted : forall tl wr,
  (forall x y text size, ry0 (wr (py_point (x, y)) text size) <= y <= ry1 (wr (py_point (x, y)) text size) /\
     rheight (wr (py_point (x, y)) text size) <= 2 * size) ->
  exists t t', new_span tl wr (rotation_matrix R90 595 842) (rt_span "Arial") = Some (TSpan t) /\ s_box t = rround (mkRect 336 100 348 112) /\
    new_span tl wr (rotation_matrix R90 595 842) (rt_span "Unnamed-T3") = Some (TSpan t') /\ 400 < ry0 (s_box t').
Proof.
  intros tl wr H. set (t0 := mkTSpan (rround (mkRect 336 100 348 112)) (PNum 0) "Unnamed-T3" 12 (PNum 0)
    [mkChar (rround (mkRect 336 100 342 112)) "H" (py_point (110, 506)); mkChar (rround (mkRect 342 100 348 112)) "i" (py_point (110, 500))] (PList [])).
  eexists. eexists. split; [vm_compute; reflexivity|]. split; [vm_compute; reflexivity|].
  assert (E : new_span tl wr (rotation_matrix R90 595 842) (rt_span "Unnamed-T3") = option_map TSpan (set_arial tl wr t0)) by (lazy -[set_arial]; reflexivity).
  split; [rewrite E; unfold set_arial, t0; cbn [s_chars option_map]; reflexivity|]. cbn [s_box s_size c_origin t0]. clear E t0.
  set (text := span_text _). set (len := tl text 12). set (size := if qlt _ len then _ else _).
  assert (Hs : size <= 12).
  { unfold size. destruct (qlt_spec (rwidth (rround (mkRect 336 100 348 112))) len) as [Hl|Hl]; [|lra].
    change (rwidth (rround (mkRect 336 100 348 112))) with ((3480 # 10) - (3360 # 10)) in *.
    assert (W : (3480 # 10) - (3360 # 10) == 12) by reflexivity. rewrite W in *.
    assert (D : 12 / len <= 1) by (apply Qle_shift_div_r; lra). nra. }
  clearbody size. destruct (H 110 506 text size) as [[H1 H2] H3]. set (rr := wr _ _ _) in *. clearbody rr. unfold rheight in *.
  unfold rround. cbn [ry0]. assert (B : 450 < ry0 rr + (ry1 rr - ry0 rr - size) / 2).
  { setoid_replace ((ry1 rr - ry0 rr - size) / 2) with ((ry1 rr - ry0 rr - size) * (1 # 2)) by field. lra. }
  pose proof (round1_bound (ry0 rr + (ry1 rr - ry0 rr - size) / 2)) as R. lra.
Qed.
Print Assumptions C80_nameless_refuted.
