From Verif Require Import GeomModel GeomSpec GeomProof ShapeModel TextModel TextSpec.
From Coq Require Import Lia Permutation Lqa.
Open Scope Q_scope.

(* ------------------------------------------------------------------ *)
(** * split *)
Lemma filter_len {A} (p : A -> bool) l : (length (filter p l) <= length l)%nat.
Proof. induction l as [|x t IH]; cbn; [lia|]. destruct (p x); cbn; lia. Qed.
Lemma skip_skip {A} (l : list A) : forall p n, skipn n (skipn p l) = skipn (p + n) l.
Proof.
  induction l as [|x t IH]; intros [|p] n; cbn; rewrite ?skipn_nil; try reflexivity. apply IH.
Qed.
Lemma first_index_some p l k : first_index p l = Some k ->
  (k + length (filter p l) <= length l)%nat /\ (1 <= length (filter p l))%nat /\
  filter p (firstn k l) = [] /\ exists c, nth_error l k = Some c /\ p c = true.
Proof.
  revert k. induction l as [|c t IH]; cbn; intros k H; [discriminate|].
  destruct (p c) eqn:E.
  - injection H as <-. cbn. pose proof (filter_len p t). split; [lia|]. split; [lia|]. split; [reflexivity|]. exists c. auto.
  - destruct (first_index p t) as [k'|]; [|discriminate]. cbn in H. injection H as <-.
    destruct (IH k' eq_refl) as (A & B & C & D). cbn. split; [lia|]. split; [exact B|]. rewrite E. split; assumption.
Qed.
Lemma first_index_none p l : first_index p l = None <-> filter p l = [].
Proof.
  induction l as [|c t IH]; cbn; [tauto|]. destruct (p c); [split; discriminate|].
  destruct (first_index p t); cbn; [|rewrite <- IH; tauto].
  split; [discriminate|]. intros H. apply IH in H. discriminate.
Qed.
Lemma three_parts {A} (l : list A) p n : firstn p l ++ firstn n (skipn p l) ++ skipn (p + n) l = l.
Proof.
  rewrite <- (skip_skip l p n). rewrite firstn_skipn. apply firstn_skipn.
Qed.
Definition tstyled (t : tspan) : list (glyph * list style) := span_glyphs (SText t).

Lemma parse_format_parts h t s : ts_chars (fst (parse_format h t s)) = ts_chars t /\ ts_attrs (fst (parse_format h t s)) = ts_attrs t /\
  ts_bbox (fst (parse_format h t s)) = ts_bbox t /\ (exists more, ts_style (fst (parse_format h t s)) = ts_style t ++ more) /\
  (exists k, snd (parse_format h t s) = set_type s k).
Proof.
  assert (E : set_type s (sh_type s) = s) by (destruct s; reflexivity).
  unfold parse_format.
  destruct (sh_type s) eqn:T; try (destruct (rtype_eqb (style_type h t s) R_UNDEFINED)); cbn;
    (split; [reflexivity|]; split; [reflexivity|]; split; [reflexivity|]; split;
      [first [exists []; rewrite app_nil_r; reflexivity | eexists; reflexivity]
      |first [eexists; reflexivity | exists (sh_type s); rewrite E; reflexivity | (eexists; rewrite <- E at 1; reflexivity)]]).
Qed.

Definition ext_span (t u : tspan) : Prop := ts_attrs u = ts_attrs t /\ exists more, ts_style u = ts_style t ++ more.
(** Shape of the result. *)
Lemma split_span_shape h t s : exists ps, fst (split_span h t s) = ps /\ (forall u, In u ps -> ext_span t u) /\
  concat (map ts_chars ps) = ts_chars t /\ (ts_chars t <> [] -> forall u, In u ps -> ts_chars u <> []) /\
  exists k, snd (split_span h t s) = set_type s k.
Proof.
  assert (Eself : ext_span t t) by (split; [reflexivity|exists []; rewrite app_nil_r; reflexivity]).
  assert (Epart : forall b cs, ext_span t (part t b cs)) by (intros; split; [reflexivity|exists []; rewrite app_nil_r; reflexivity]).
  assert (Es : s = set_type s (sh_type s)) by (destruct s; reflexivity).
  eexists. split; [reflexivity|]. unfold split_span. cbv zeta.
  destruct (negb (rect_bool (rinter (sh_bbox s) (ts_bbox t)))).
  { cbn. split; [intros u [<-|[]]; exact Eself|]. rewrite app_nil_r. split; [reflexivity|].
    split; [intros H u [<-|[]]; exact H|]. exists (sh_type s). exact Es. }
  set (i := across h _ _). set (ins := char_in h (sh_bbox s)). set (cs := ts_chars t).
  destruct (first_index ins cs) as [p|] eqn:F.
  - destruct (first_index_some _ _ _ F) as (A & B & _ & _). set (n := length (filter ins cs)) in *.
    destruct (parse_format_parts h (part t i (firstn n (skipn p cs))) s) as (P1 & P2 & _ & P3 & P4).
    destruct (parse_format h (part t i (firstn n (skipn p cs))) s) as [m s'] eqn:PF. cbn [fst snd] in *.
    set (left := match p with O => _ | S _ => _ end). set (right := if (p + n <? length cs)%nat then _ else _).
    assert (Hl : (forall u, In u left -> ext_span t u) /\ concat (map ts_chars left) = firstn p cs /\ forall u, In u left -> ts_chars u <> []).
    { unfold left. destruct p as [|p]; [cbn; split; [intros u []|]; split; [reflexivity|intros u []]|]. cbn [In map concat]. rewrite app_nil_r.
      split; [intros u [<-|[]]; apply Epart|]. split; [reflexivity|]. intros u [<-|[]]. cbn [ts_chars part].
      intros H. apply (f_equal (@length char)) in H. rewrite firstn_length in H. cbn [length] in H. lia. }
    assert (Hr : (forall u, In u right -> ext_span t u) /\ concat (map ts_chars right) = skipn (p + n) cs /\ forall u, In u right -> ts_chars u <> []).
    { unfold right. destruct (Nat.ltb_spec (p + n) (length cs)) as [L|L].
      - cbn [In map concat]. rewrite app_nil_r. split; [intros u [<-|[]]; apply Epart|]. split; [reflexivity|].
        intros u [<-|[]]. cbn [ts_chars part]. intros H. apply (f_equal (@length char)) in H. rewrite skipn_length in H. cbn [length] in H. lia.
      - cbn. rewrite skipn_all2 by lia. split; [intros u []|]. split; [reflexivity|intros u []]. }
    assert (Hm : ext_span t m) by (split; [exact P2|destruct P3 as [more P3]; exists more; exact P3]).
    assert (Nm : ts_chars m <> []).
    { rewrite P1. cbn [ts_chars part]. intros H. apply (f_equal (@length char)) in H. rewrite firstn_length, skipn_length in H. cbn [length] in H. lia. }
    destruct Hl as (L1 & L2 & L3), Hr as (R1 & R2 & R3). cbn [app].
    split; [intros u Hu; apply in_app_or in Hu; destruct Hu as [Hu|[<-|Hu]]; [apply L1|exact Hm|apply R1]; exact Hu|].
    split.
    { rewrite map_app, concat_app. cbn [map concat]. rewrite L2, R2, P1. cbn [ts_chars part]. apply three_parts. }
    split; [|exact P4].
    intros _ u Hu. apply in_app_or in Hu. destruct Hu as [Hu|[<-|Hu]]; [apply L3|exact Nm|apply R3]; exact Hu.
  - cbn [fst snd app]. split.
    { intros u Hu. destruct (0 <? length cs)%nat; [|destruct Hu]. destruct Hu as [<-|[]]. apply Epart. }
    split.
    { destruct (Nat.ltb_spec 0 (length cs)) as [L|L]; cbn [map concat]; [cbn; rewrite app_nil_r; reflexivity|].
      destruct cs; [reflexivity|cbn in L; lia]. }
    split; [|exists (sh_type s); exact Es].
    intros H u Hu. destruct (Nat.ltb_spec 0 (length cs)) as [L|L]; [|destruct Hu]. destruct Hu as [<-|[]]. exact H.
Qed.

Lemma ext_refl l : only_styles_added l l.
Proof. induction l as [|a t IH]; constructor; [split; [reflexivity|exists []; rewrite app_nil_r; reflexivity]|exact IH]. Qed.
Lemma ext_app a b c d : only_styles_added a b -> only_styles_added c d -> only_styles_added (a ++ c) (b ++ d).
Proof. apply Forall2_app. Qed.
Lemma ext_trans a : forall b c, only_styles_added a b -> only_styles_added b c -> only_styles_added a c.
Proof.
  induction a as [|x a IH]; intros b c H1 H2; inversion H1; subst; inversion H2; subst; constructor.
  - destruct H3 as (E1 & m1 & E2). match goal with H : style_extends _ _ |- _ => destruct H as (E3 & m2 & E4) end.
    split; [congruence|]. exists (m1 ++ m2). rewrite app_assoc, <- E2. exact E4.
  - eapply IH; eassumption.
Qed.
Lemma ext_fst a : forall b, only_styles_added a b -> map fst a = map fst b.
Proof. induction a as [|x a IH]; intros b H; inversion H; subst; [reflexivity|]. cbn. f_equal; [apply H2|apply IH; assumption]. Qed.
Lemma ext_chars t ps : (forall u, In u ps -> ext_span t u) -> forall cs, concat (map ts_chars ps) = cs ->
  only_styles_added (map (fun c => (GChar c (ts_attrs t), ts_style t)) cs) (flat_map tstyled ps).
Proof.
  induction ps as [|u ps IH]; intros H cs <-; cbn [map concat flat_map]; [constructor|].
  rewrite map_app. apply ext_app; [|apply IH; [intros v Hv; apply H; right; exact Hv|reflexivity]].
  destruct (H u (or_introl eq_refl)) as (A & more & S). unfold tstyled, span_glyphs. rewrite A, S.
  induction (ts_chars u) as [|c t' IHc]; cbn; constructor; [split; [reflexivity|exists more; reflexivity]|exact IHc].
Qed.
Lemma split_span_styled h t s : only_styles_added (tstyled t) (flat_map tstyled (fst (split_span h t s))).
Proof.
  destruct (split_span_shape h t s) as (ps & E & H & C & _). rewrite E. unfold tstyled at 1, span_glyphs. apply ext_chars; assumption.
Qed.
Lemma styled_map_text ps : styled (map SText ps) = flat_map tstyled ps.
Proof. unfold styled. induction ps as [|p t IH]; cbn; [reflexivity|]. rewrite IH. reflexivity. Qed.
Lemma styled_app a b : styled (a ++ b) = styled a ++ styled b.
Proof. apply flat_map_app. Qed.
Lemma split_spans_styled h ss : forall s, only_styles_added (styled ss) (styled (fst (split_spans h ss s))).
Proof.
  induction ss as [|[t|k b] ss IH]; intros s; cbn [split_spans].
  - constructor.
  - pose proof (split_span_styled h t s) as Ht. destruct (split_span h t s) as [p s1]. specialize (IH s1).
    destruct (split_spans h ss s1) as [r s2]. cbn [fst] in *. rewrite styled_app, styled_map_text.
    change (styled (SText t :: ss)) with (tstyled t ++ styled ss). apply ext_app; assumption.
  - specialize (IH s). destruct (split_spans h ss s) as [r s']. cbn [fst] in *.
    change (styled (SImage k b :: ss)) with ([(GImage k b, [])] ++ styled ss).
    change (styled (SImage k b :: r)) with ([(GImage k b, [])] ++ styled r). apply ext_app; [apply ext_refl|exact IH].
Qed.

(** Boxes stay usable. *)
Lemma text_box_truthy h b : text_box h b -> rect_bool b = true.
Proof. intros (_ & H). unfold rect_bool. destruct h; destruct H; qcases; cbn; try reflexivity; exfalso; lra. Qed.
Lemma round1_fixed x : decimal 10 x -> round1 x == x. Proof. apply round_p_fixed. Qed.
Lemma round1_mono x y : x <= y -> round1 x <= round1 y. Proof. apply round_p_mono. Qed.
Lemma text_box_round_h x0 y0 x1 y1 : decimal 10 y0 -> decimal 10 y1 -> y0 < y1 -> x0 <= x1 -> text_box true (rround (mkRect x0 y0 x1 y1)).
Proof.
  intros D0 D1 Hy Hx. split; [apply rround_decimal|]. cbn. rewrite !round1_fixed by assumption. split; [exact Hy|apply round1_mono; exact Hx].
Qed.
Lemma text_box_round_v x0 y0 x1 y1 : decimal 10 x0 -> decimal 10 x1 -> x0 < x1 -> y0 <= y1 -> text_box false (rround (mkRect x0 y0 x1 y1)).
Proof.
  intros D0 D1 Hy Hx. split; [apply rround_decimal|]. cbn. rewrite !round1_fixed by assumption. split; [exact Hy|apply round1_mono; exact Hx].
Qed.
Lemma rinter_range r b : rect_bool (rinter r b) = true ->
  rx0 b <= rx0 (rinter r b) /\ ry0 b <= ry0 (rinter r b) /\ rx0 (rinter r b) <= rx1 (rinter r b) /\ ry0 (rinter r b) <= ry1 (rinter r b) /\
  rx1 (rinter r b) <= rx1 b /\ ry1 (rinter r b) <= ry1 b.
Proof.
  unfold rinter. destruct (rect_empty r); [discriminate|]. destruct (rect_empty b); [discriminate|]. cbv zeta.
  destruct (qlt_spec (qmin (rx1 r) (rx1 b)) (qmax (rx0 r) (rx0 b))) as [|Hx]; [discriminate|].
  destruct (qlt_spec (qmin (ry1 r) (ry1 b)) (qmax (ry0 r) (ry0 b))) as [|Hy]; [discriminate|]. cbn. intros _.
  unfold qmin, qmax in *. qcases; lra.
Qed.
Lemma split_span_boxes h t s : text_box h (ts_bbox t) -> forall u, In u (fst (split_span h t s)) -> text_box h (ts_bbox u).
Proof.
  intros T. unfold split_span. cbv zeta. destruct (rect_bool (rinter (sh_bbox s) (ts_bbox t))) eqn:R; cbn [negb].
  2:{ intros u [<-|[]]. exact T. }
  pose proof (rinter_range _ _ R) as G. destruct T as ((D1 & D2 & D3 & D4) & T). set (b := ts_bbox t) in *. set (i := rinter (sh_bbox s) b) in *.
  clearbody b i. unfold across. intros u Hu.
  destruct h.
  - assert (K : forall cs x0 x1, x0 <= x1 -> text_box true (ts_bbox (part t (mkRect x0 (ry0 b) x1 (ry1 b)) cs))).
    { intros cs x0 x1 Hx. cbn [ts_bbox part]. apply text_box_round_h; try assumption. lra. }
    destruct (first_index _ (ts_chars t)) as [p|] eqn:F.
    + match type of Hu with context [parse_format true ?a s] => destruct (parse_format_parts true a s) as (_ & _ & Pb & _); destruct (parse_format true a s) as [m s'] end.
      cbn [fst snd] in *. apply in_app_or in Hu. destruct Hu as [Hu|[<-|Hu]].
      * destruct p; [destruct Hu|]. destruct Hu as [<-|[]]. apply K. cbn. lra.
      * rewrite Pb. apply K. cbn. lra.
      * match type of Hu with context [if ?c then _ else _] => destruct c end; [|destruct Hu]. destruct Hu as [<-|[]]. apply K. cbn. lra.
    + cbn [fst snd app] in Hu. match type of Hu with context [if ?c then _ else _] => destruct c end; [|destruct Hu]. destruct Hu as [<-|[]]. apply K. cbn. lra.
  - assert (K : forall cs y0 y1, y0 <= y1 -> text_box false (ts_bbox (part t (mkRect (rx0 b) y0 (rx1 b) y1) cs))).
    { intros cs y0 y1 Hx. cbn [ts_bbox part]. apply text_box_round_v; try assumption. lra. }
    destruct (first_index _ (ts_chars t)) as [p|] eqn:F.
    + match type of Hu with context [parse_format false ?a s] => destruct (parse_format_parts false a s) as (_ & _ & Pb & _); destruct (parse_format false a s) as [m s'] end.
      cbn [fst snd] in *. apply in_app_or in Hu. destruct Hu as [Hu|[<-|Hu]].
      * destruct p; [destruct Hu|]. destruct Hu as [<-|[]]. apply K. cbn. lra.
      * rewrite Pb. apply K. cbn. lra.
      * match type of Hu with context [if ?c then _ else _] => destruct c end; [|destruct Hu]. destruct Hu as [<-|[]]. apply K. cbn. lra.
    + cbn [fst snd app] in Hu. match type of Hu with context [if ?c then _ else _] => destruct c end; [|destruct Hu]. destruct Hu as [<-|[]]. apply K. cbn. lra.
Qed.
Lemma split_spans_good h ss : (forall x, In x ss -> good_span h x) -> forall s x, In x (fst (split_spans h ss s)) -> good_span h x.
Proof.
  induction ss as [|[t|k b] ss IH]; intros H s x; cbn [split_spans].
  - intros [].
  - pose proof (split_span_boxes h t s (H (SText t) (or_introl eq_refl))) as Ht. destruct (split_span h t s) as [p s1].
    assert (IH' := IH (fun y Hy => H y (or_intror Hy)) s1). destruct (split_spans h ss s1) as [r s2]. cbn [fst] in *.
    intros Hx. apply in_app_or in Hx. destruct Hx as [Hx|Hx]; [|apply IH'; exact Hx].
    apply in_map_iff in Hx. destruct Hx as (u & <- & Hu). apply Ht. exact Hu.
  - assert (IH' := IH (fun y Hy => H y (or_intror Hy)) s). destruct (split_spans h ss s) as [r s']. cbn [fst] in *.
    intros [<-|Hx]; [apply (H _ (or_introl eq_refl))|apply IH'; exact Hx].
Qed.
Lemma good_truthy h x : good_span h x -> span_bool x = true.
Proof. destruct x as [t|k b]; unfold span_bool; cbn; [apply text_box_truthy|auto]. Qed.
Lemma line_add_all_spans ss : forall l, (forall x, In x ss -> span_bool x = true) ->
  ln_spans (line_add_all l ss) = ln_spans l ++ ss /\ ln_dir (line_add_all l ss) = ln_dir l.
Proof.
  unfold line_add_all. induction ss as [|x t IH]; intros l H; cbn [fold_left]; [rewrite app_nil_r; auto|].
  destruct (IH (line_add l x) (fun y Hy => H y (or_intror Hy))) as (A & B). rewrite A, B.
  unfold line_add. rewrite (H x (or_introl eq_refl)). cbn. rewrite <- app_assoc. auto.
Qed.
Lemma line_reset_spans l ss : (forall x, In x ss -> span_bool x = true) -> ln_spans (line_reset l ss) = ss /\ ln_dir (line_reset l ss) = ln_dir l.
Proof. intros H. unfold line_reset. destruct (line_add_all_spans ss (mkLine (ln_bbox l) (ln_dir l) [] (ln_pid l) (ln_break l)) H) as (A & B). rewrite A, B. auto. Qed.

Definition line_ok (a b : line) : Prop := only_styles_added (styled (ln_spans a)) (styled (ln_spans b)) /\ ln_dir b = ln_dir a /\ good_line b.
Lemma line_ok_refl l : good_line l -> line_ok l l.
Proof. intros H. split; [apply ext_refl|]. split; [reflexivity|exact H]. Qed.
Lemma line_ok_trans a b c : line_ok a b -> line_ok b c -> line_ok a c.
Proof. intros (A1 & A2 & A3) (B1 & B2 & B3). split; [eapply ext_trans; eassumption|]. split; [congruence|exact B3]. Qed.
Lemma lines_ok_refl ls : (forall l, In l ls -> good_line l) -> Forall2 line_ok ls ls.
Proof. induction ls as [|l t IH]; intros H; constructor; [apply line_ok_refl, H; left; reflexivity|apply IH; intros x Hx; apply H; right; exact Hx]. Qed.
Lemma lines_ok_trans a : forall b c, Forall2 line_ok a b -> Forall2 line_ok b c -> Forall2 line_ok a c.
Proof. induction a as [|x a IH]; intros b c H1 H2; inversion H1; subst; inversion H2; subst; constructor; [eapply line_ok_trans; eassumption|eapply IH; eassumption]. Qed.
Lemma lines_ok_good a b : Forall2 line_ok a b -> forall l, In l b -> good_line l.
Proof. induction 1 as [|x y a b Hx _ IH]; intros l Hl; [destruct Hl|]. destruct Hl as [<-|Hl]; [apply Hx|apply IH; exact Hl]. Qed.
Lemma lines_format_ok ls : (forall l, In l ls -> good_line l) -> forall s, Forall2 line_ok ls (fst (lines_format ls s)).
Proof.
  induction ls as [|l t IH]; intros H s; cbn [lines_format]; [constructor|].
  assert (IHt := IH (fun x Hx => H x (or_intror Hx))). assert (Hl := H l (or_introl eq_refl)).
  destruct (negb _).
  - destruct (qlt _ _); [apply lines_ok_refl; exact H|]. specialize (IHt s). destruct (lines_format t s) as [t' s']. cbn [fst] in *.
    constructor; [apply line_ok_refl; exact Hl|exact IHt].
  - pose proof (split_spans_styled (is_horizontal (ln_dir l)) (ln_spans l) s) as S.
    pose proof (split_spans_good (is_horizontal (ln_dir l)) (ln_spans l) Hl s) as G.
    destruct (split_spans (is_horizontal (ln_dir l)) (ln_spans l) s) as [ss s1]. specialize (IHt s1).
    destruct (lines_format t s1) as [t' s2]. cbn [fst] in *. constructor; [|exact IHt].
    destruct (line_reset_spans l ss (fun x Hx => good_truthy _ x (G x Hx))) as (E1 & E2).
    split; [rewrite E1; exact S|]. split; [exact E2|]. unfold good_line. rewrite E1, E2. exact G.
Qed.
Lemma block_format_ok bb rects : forall ls, (forall l, In l ls -> good_line l) -> Forall2 line_ok ls (fst (block_format bb ls rects)).
Proof.
  induction rects as [|s t IH]; intros ls H; cbn [block_format]; [apply lines_ok_refl; exact H|].
  assert (F : Forall2 line_ok ls (fst (if applicable bb s then lines_format ls s else (ls, s)))).
  { destruct (applicable bb s); [apply lines_format_ok; exact H|apply lines_ok_refl; exact H]. }
  destruct (if applicable bb s then lines_format ls s else (ls, s)) as [ls1 s1]. cbn [fst] in F.
  specialize (IH ls1 (lines_ok_good _ _ F)). destruct (block_format bb ls1 t) as [ls2 t1]. cbn [fst] in *.
  eapply lines_ok_trans; eassumption.
Qed.
Lemma blocks_format_ok bs : forall rects, (forall b l, In b bs -> In l (snd b) -> good_line l) ->
  Forall2 (fun a b => fst b = fst a /\ Forall2 line_ok (snd a) (snd b)) bs (fst (blocks_format bs rects)).
Proof.
  induction bs as [|[bb ls] t IH]; intros rects H; cbn [blocks_format]; [constructor|].
  pose proof (block_format_ok bb rects ls (fun l Hl => H (bb, ls) l (or_introl eq_refl) Hl)) as B.
  destruct (block_format bb ls rects) as [ls' r1]. specialize (IH r1 (fun b l Hb => H b l (or_intror Hb))).
  destruct (blocks_format t r1) as [t' r2]. cbn [fst snd] in *. constructor; [split; [reflexivity|exact B]|exact IH].
Qed.

(* ------------------------------------------------------------------ *)
(** * Which characters get the style *)
Lemma rinter_proper a b : proper a -> proper b ->
  rinter a b = if qlt (qmin (rx1 a) (rx1 b)) (qmax (rx0 a) (rx0 b)) || qlt (qmin (ry1 a) (ry1 b)) (qmax (ry0 a) (ry0 b)) then rect0
               else mkRect (qmax (rx0 a) (rx0 b)) (qmax (ry0 a) (ry0 b)) (qmin (rx1 a) (rx1 b)) (qmin (ry1 a) (ry1 b)).
Proof. intros Pa Pb. unfold rinter. rewrite !proper_nonempty by assumption. reflexivity. Qed.
Lemma rcontains_proper a b : proper a -> proper b -> rcontains a b = true -> covers a b.
Proof.
  intros Pa Pb. unfold rcontains. rewrite !proper_nonempty by assumption. rewrite !andb_true_iff, !qle_iff. unfold covers. tauto.
Qed.
Lemma qmin_cases x y : (qmin x y == x /\ x <= y) \/ (qmin x y == y /\ y <= x).
Proof. unfold qmin. destruct (qlt_spec y x); [right|left]; split; try reflexivity; lra. Qed.
Lemma qmax_cases x y : (qmax x y == x /\ y <= x) \/ (qmax x y == y /\ x <= y).
Proof. unfold qmax. destruct (qlt_spec x y); [right|left]; split; try reflexivity; lra. Qed.
Lemma char_in_spec h r c : proper r -> proper (ch_bbox c) -> char_in h r c = true <-> half_covered h r c.
Proof.
  intros R C. unfold char_in. pose proof (rcontains_proper r (ch_bbox c) R C) as K. rewrite (rinter_proper _ _ C R). cbv zeta.
  destruct R as [R1 R2], C as [C1 C2]. unfold half_covered, rwidth, rheight. cbv zeta. set (b := ch_bbox c) in *. clearbody b.
  pose proof (qmin_cases (rx1 b) (rx1 r)) as M1. pose proof (qmin_cases (ry1 b) (ry1 r)) as M2.
  pose proof (qmax_cases (rx0 b) (rx0 r)) as M3. pose proof (qmax_cases (ry0 b) (ry0 r)) as M4.
  destruct h; cbn [negb lo hi];
  set (X1 := qmin (rx1 b) (rx1 r)) in *; set (Y1 := qmin (ry1 b) (ry1 r)) in *; set (X0 := qmax (rx0 b) (rx0 r)) in *; set (Y0 := qmax (ry0 b) (ry0 r)) in *;
  clearbody X0 X1 Y0 Y1.
  - destruct (rcontains r b).
    + destruct (K eq_refl) as (K1 & K2 & K3 & K4). split; [intros _|reflexivity]. split; [lra|]. split; [lra|].
      assert (X1 == rx1 b) by (destruct M1 as [(?&?)|(?&?)]; lra). assert (X0 == rx0 b) by (destruct M3 as [(?&?)|(?&?)]; lra).
      setoid_replace ((rx1 b - rx0 b) / 2) with ((1 # 2) * (rx1 b - rx0 b)) by field. lra.
    + clear K. setoid_replace ((rx1 b - rx0 b) / 2) with ((1 # 2) * (rx1 b - rx0 b)) by field.
      destruct (qlt_spec X1 X0) as [Sx|Sx]; cbn [orb].
      * unfold rect0. cbn [rx0 rx1]. rewrite qlt_iff. split; [intros H; exfalso; lra|intros (_ & _ & H); exfalso; lra].
      * destruct (qlt_spec Y1 Y0) as [Sy|Sy].
        -- cbn [rx0 rx1 rect0]. rewrite qlt_iff. split; [intros H; exfalso; lra|]. intros (H1 & H2 & _). exfalso. destruct M2 as [(?&?)|(?&?)], M4 as [(?&?)|(?&?)]; lra.
        -- cbn [rx0 rx1]. rewrite qlt_iff. split; [intros H; split; [|split; [|exact H]]; destruct M2 as [(?&?)|(?&?)], M4 as [(?&?)|(?&?)]; lra|intros (_ & _ & H); exact H].
  - destruct (rcontains r b).
    + destruct (K eq_refl) as (K1 & K2 & K3 & K4). split; [intros _|reflexivity]. split; [lra|]. split; [lra|].
      assert (Y1 == ry1 b) by (destruct M2 as [(?&?)|(?&?)]; lra). assert (Y0 == ry0 b) by (destruct M4 as [(?&?)|(?&?)]; lra).
      setoid_replace ((ry1 b - ry0 b) / 2) with ((1 # 2) * (ry1 b - ry0 b)) by field. lra.
    + clear K. setoid_replace ((ry1 b - ry0 b) / 2) with ((1 # 2) * (ry1 b - ry0 b)) by field.
      destruct (qlt_spec Y1 Y0) as [Sy|Sy]; rewrite ?orb_true_r.
      * unfold rect0. cbn [ry0 ry1]. rewrite qlt_iff. split; [intros H; exfalso; lra|intros (_ & _ & H); exfalso; lra].
      * destruct (qlt_spec X1 X0) as [Sx|Sx]; cbn [orb].
        -- cbn [ry0 ry1 rect0]. rewrite qlt_iff. split; [intros H; exfalso; lra|]. intros (H1 & H2 & _). exfalso. destruct M1 as [(?&?)|(?&?)], M3 as [(?&?)|(?&?)]; lra.
        -- cbn [ry0 ry1]. rewrite qlt_iff. split; [intros H; split; [|split; [|exact H]]; destruct M1 as [(?&?)|(?&?)], M3 as [(?&?)|(?&?)]; lra|intros (_ & _ & H); exact H].
Qed.
Lemma between h r cs : proper r -> laid_out h cs ->
  forall i j k a b c, (i < j < k)%nat -> nth_error cs i = Some a -> nth_error cs j = Some b -> nth_error cs k = Some c ->
  half_covered h r a -> half_covered h r c -> half_covered h r b.
Proof.
  intros [R1 R2] ((y0 & y1 & Hr) & Hf) i j k a b c Hij Ha Hb Hc Pa Pc.
  pose proof (Hf i j a b (proj1 Hij) Ha Hb) as F1. pose proof (Hf j k b c (proj2 Hij) Hb Hc) as F2.
  destruct (Hr a (nth_error_In _ _ Ha)) as ((A1 & A2) & A3 & A4). destruct (Hr b (nth_error_In _ _ Hb)) as ((B1 & B2) & B3 & B4).
  destruct (Hr c (nth_error_In _ _ Hc)) as ((C1 & C2) & C3 & C4).
  assert (Hd : forall x, x / 2 == (1 # 2) * x) by (intros; field).
  unfold half_covered, follows in *. cbv zeta in *. rewrite Hd in Pa, Pc |- *.
  destruct h; cbn [negb lo hi] in *; destruct Pa as (P1 & P2 & P3), Pc as (P4 & P5 & P6); (split; [lra|]); (split; [lra|]);
  match type of P3 with _ < qmin ?p ?q - qmax ?u ?v => destruct (qmin_cases p q) as [(?&?)|(?&?)], (qmax_cases u v) as [(?&?)|(?&?)] end;
  match type of P6 with _ < qmin ?p ?q - qmax ?u ?v => destruct (qmin_cases p q) as [(?&?)|(?&?)], (qmax_cases u v) as [(?&?)|(?&?)] end;
  match goal with |- _ < qmin ?p ?q - qmax ?u ?v => destruct (qmin_cases p q) as [(?&?)|(?&?)], (qmax_cases u v) as [(?&?)|(?&?)] end; lra.
Qed.
Lemma filter_none {A} (p : A -> bool) l : (forall x, In x l -> p x = false) -> filter p l = [].
Proof. induction l as [|x t IH]; intros H; [reflexivity|]. cbn. rewrite (H x (or_introl eq_refl)). apply IH. intros y Hy. apply H. right. exact Hy. Qed.
Lemma filter_nil {A} (p : A -> bool) l : filter p l = [] -> forall x, In x l -> p x = false.
Proof.
  induction l as [|x t IH]; intros H y Hy; [destruct Hy|]. cbn in H. destruct (p x) eqn:E; [discriminate|].
  destruct Hy as [<-|Hy]; [exact E|apply IH; assumption].
Qed.
(** A contiguous predicate holds on a prefix, once it holds at the start. *)
Lemma prefix_filter p (l : list char) : (forall i j b c, (i < j)%nat -> nth_error l i = Some b -> nth_error l j = Some c -> p c = true -> p b = true) ->
  firstn (length (filter p l)) l = filter p l /\ filter p (skipn (length (filter p l)) l) = [].
Proof.
  induction l as [|x t IH]; intros H; [cbn; auto|]. cbn [filter].
  destruct (p x) eqn:E.
  - destruct IH as (A & B). { intros i j b c Hij Hb Hc. apply (H (S i) (S j) b c); [lia|exact Hb|exact Hc]. }
    cbn. rewrite A. split; [reflexivity|exact B].
  - assert (N : filter p t = []).
    { apply filter_none. intros y Hy. apply In_nth_error in Hy. destruct Hy as [j Hj].
      destruct (p y) eqn:Ey; [|reflexivity]. rewrite (H 0%nat (S j) x y) in E; [discriminate|lia|reflexivity|exact Hj|exact Ey]. }
    rewrite N. cbn. rewrite E, N. auto.
Qed.
Lemma contiguous p (l : list char) k : first_index p l = Some k ->
  (forall i j m a b c, (i < j < m)%nat -> nth_error l i = Some a -> nth_error l j = Some b -> nth_error l m = Some c ->
     p a = true -> p c = true -> p b = true) ->
  let n := length (filter p l) in
  firstn n (skipn k l) = filter p l /\ filter p (firstn k l) = [] /\ filter p (skipn (k + n) l) = [].
Proof.
  intros F H n. destruct (first_index_some _ _ _ F) as (A & B & C & c0 & D & E).
  assert (Fk : filter p (skipn k l) = filter p l).
  { rewrite <- (firstn_skipn k l) at 2. rewrite filter_app, C. reflexivity. }
  destruct (prefix_filter p (skipn k l)) as (P1 & P2).
  { intros i j b c Hij Hb Hc Pc. destruct i as [|i].
    - rewrite <- (firstn_skipn k l) in D. rewrite nth_error_app2 in D by apply firstn_le_length.
      rewrite firstn_length, Nat.min_l, Nat.sub_diag in D by (pose proof (filter_len p l); lia).
      rewrite D in Hb. injection Hb as <-. exact E.
    - assert (X : forall q, nth_error (skipn k l) q = nth_error l (k + q)).
      { intros q. rewrite <- (firstn_skipn k l) at 2. rewrite nth_error_app2; rewrite firstn_length, Nat.min_l by lia; [f_equal; lia|lia]. }
      rewrite X in Hb, Hc. apply (H k (k + S i)%nat (k + j)%nat c0 b c); try assumption; lia. }
  rewrite Fk in P1, P2. fold n in P1, P2. split; [exact P1|]. split; [exact C|].
  rewrite <- (skip_skip l k n). exact P2.
Qed.
Lemma flat_one t : flat_map tstyled [t] = map (fun c => (GChar c (ts_attrs t), ts_style t)) (ts_chars t).
Proof. cbn. rewrite app_nil_r. reflexivity. Qed.
Lemma parse_format_style h t s : exists new, ts_style (fst (parse_format h t s)) = ts_style t ++ new /\
  (new = [] \/ exists k u, new = [mkStyle k (sh_color s) u]).
Proof.
  unfold parse_format. destruct (sh_type s); try (destruct (rtype_eqb _ _)); cbn;
    first [exists []; rewrite app_nil_r; split; [reflexivity|left; reflexivity] | eexists; split; [reflexivity|right; eexists; eexists; reflexivity]].
Qed.
Lemma split_span_exact h t s : proper (sh_bbox s) -> laid_out h (ts_chars t) -> rect_bool (rinter (sh_bbox s) (ts_bbox t)) = true ->
  exists l m r new, ts_chars t = l ++ m ++ r /\
    (forall c, In c m -> half_covered h (sh_bbox s) c) /\ (forall c, In c (l ++ r) -> ~ half_covered h (sh_bbox s) c) /\
    (new = [] \/ exists k u, new = [mkStyle k (sh_color s) u]) /\
    flat_map tstyled (fst (split_span h t s)) =
      map (fun c => (GChar c (ts_attrs t), ts_style t)) l ++
      map (fun c => (GChar c (ts_attrs t), ts_style t ++ new)) m ++
      map (fun c => (GChar c (ts_attrs t), ts_style t)) r.
Proof.
  intros Pr L R. unfold split_span. rewrite R. cbv zeta. cbn [negb].
  set (i := across h _ _). set (ins := char_in h (sh_bbox s)). set (cs := ts_chars t) in *.
  assert (Hp : forall c, In c cs -> proper (ch_bbox c)) by (intros c Hc; destruct L as ((y0 & y1 & Hr) & _); apply (Hr c Hc)).
  assert (Hin : forall c, In c cs -> ins c = true <-> half_covered h (sh_bbox s) c) by (intros c Hc; apply char_in_spec; [exact Pr|apply Hp; exact Hc]).
  assert (Hno : forall q c, incl q cs -> filter ins q = [] -> In c q -> ~ half_covered h (sh_bbox s) c).
  { intros q c Hq Hf Hc Hh. apply (filter_nil _ _ Hf) in Hc as Hc'. apply (Hin c (Hq c Hc)) in Hh. congruence. }
  assert (Ifst : forall k, incl (firstn k cs) cs) by (intros k x Hx; rewrite <- (firstn_skipn k cs); apply in_or_app; left; exact Hx).
  assert (Iskp : forall k, incl (skipn k cs) cs) by (intros k x Hx; rewrite <- (firstn_skipn k cs); apply in_or_app; right; exact Hx).
  destruct (first_index ins cs) as [p|] eqn:F.
  - destruct (contiguous ins cs p F) as (C1 & C2 & C3).
    { intros i0 j m a b c Hij Ha Hb Hc Qa Qc. apply (Hin b (nth_error_In _ _ Hb)).
      apply (between h (sh_bbox s) cs Pr L i0 j m a b c Hij Ha Hb Hc); [apply (Hin a (nth_error_In _ _ Ha)); exact Qa|apply (Hin c (nth_error_In _ _ Hc)); exact Qc]. }
    set (n := length (filter ins cs)) in *.
    destruct (parse_format_parts h (part t i (firstn n (skipn p cs))) s) as (P1 & P2 & _ & _ & _).
    destruct (parse_format_style h (part t i (firstn n (skipn p cs))) s) as (new & Ps & Pn).
    destruct (parse_format h (part t i (firstn n (skipn p cs))) s) as [m s'] eqn:PF. cbn [fst snd] in *.
    exists (firstn p cs), (firstn n (skipn p cs)), (skipn (p + n) cs), new.
    split; [symmetry; apply three_parts|].
    split; [intros c Hc; rewrite C1 in Hc; apply filter_In in Hc; apply Hin; tauto|].
    split; [intros c Hc; apply in_app_or in Hc; destruct Hc as [Hc|Hc]; [exact (Hno _ c (Ifst p) C2 Hc)|exact (Hno _ c (Iskp _) C3 Hc)]|].
    split; [exact Pn|].
    rewrite !flat_map_app. f_equal.
    + destruct p as [|p]; [reflexivity|]. apply flat_one.
    + f_equal.
      * rewrite flat_one, P1, P2, Ps. reflexivity.
      * destruct (Nat.ltb_spec (p + n) (length cs)) as [Lt|Ge]; [apply flat_one|]. rewrite skipn_all2 by lia. reflexivity.
  - exists cs, [], [], []. rewrite !app_nil_r. split; [reflexivity|]. split; [intros c []|].
    split; [intros c Hc; apply (Hno cs c); [apply incl_refl|apply first_index_none; exact F|exact Hc]|].
    split; [left; reflexivity|]. cbn [fst snd app]. destruct (Nat.ltb_spec 0 (length cs)) as [Lt|Ge].
    + rewrite flat_one. cbn. rewrite ?app_nil_r. reflexivity.
    + destruct cs; [reflexivity|cbn in Ge; lia].
Qed.

(* ------------------------------------------------------------------ *)
(** * strip *)
Lemma drop_while_split {A} (p : A -> bool) l : exists pre, l = pre ++ drop_while p l /\ (forall x, In x pre -> p x = true) /\
  length pre = (length l - length (drop_while p l))%nat /\ match drop_while p l with [] => True | x :: _ => p x = false end.
Proof.
  induction l as [|x t IH]; cbn [drop_while]; [exists []; cbn; split; [reflexivity|]; split; [intros x []|]; split; [reflexivity|exact I]|].
  destruct (p x) eqn:E.
  - destruct IH as (pre & H1 & H2 & H3 & H4). exists (x :: pre). split; [cbn; f_equal; exact H1|].
    split; [intros y [<-|Hy]; [exact E|apply H2; exact Hy]|]. split; [|exact H4]. cbn [length].
    pose proof (f_equal (@length A) H1) as L. rewrite app_length in L. lia.
  - exists []. split; [reflexivity|]. split; [intros y []|]. split; [cbn [length]; lia|exact E].
Qed.
Lemma drop_while_map {A B} (f : A -> B) p l : drop_while p (map f l) = map f (drop_while (fun x => p (f x)) l).
Proof. induction l as [|x t IH]; cbn; [reflexivity|]. destruct (p (f x)); [exact IH|reflexivity]. Qed.
Lemma blank_white c : is_blank c = true -> is_white c = true.
Proof. unfold is_blank, is_white. intros H. apply Z.eqb_eq in H. subst. reflexivity. Qed.
(** A run of at least two white characters at the start. *)
Lemma white_run l : starts_two_blanks (map ch_c l) = true ->
  exists pre w rest, l = pre ++ w :: rest /\ pre <> [] /\ (forall c, In c pre -> white_char c) /\ white_char w /\
    match rest with [] => True | c :: _ => is_white (ch_c c) = false end /\
    (length (map ch_c l) - length (drop_while is_white (map ch_c l)) - 1)%nat = length pre.
Proof.
  intros H. destruct (drop_while_split (fun c => is_white (ch_c c)) l) as (run & A & B & C & D).
  assert (L2 : (2 <= length run)%nat).
  { destruct l as [|a [|b t]]; try discriminate. cbn in H. apply andb_true_iff in H. destruct H as (H1 & H2).
    apply blank_white in H1, H2. rewrite C. cbn [drop_while]. rewrite H1, H2.
    destruct (drop_while_split (fun c => is_white (ch_c c)) t) as (r' & E & _). apply (f_equal (@length char)) in E. rewrite app_length in E. cbn [length]. lia. }
  destruct (@exists_last _ run) as (pre & w & E); [intros E; rewrite E in L2; cbn in L2; lia|]. rewrite E in *. clear run E.
  exists pre, w, (drop_while (fun c => is_white (ch_c c)) l). split; [rewrite A at 1; rewrite <- app_assoc; reflexivity|].
  rewrite app_length in L2, C. cbn [length] in L2, C.
  split; [intros ->; cbn in L2; lia|]. split; [intros c Hc; apply B; apply in_or_app; left; exact Hc|].
  split; [apply B; apply in_or_app; right; left; reflexivity|]. split; [exact D|].
  rewrite drop_while_map, !map_length, <- C. lia.
Qed.
Lemma lstrip_spec t : match span_lstrip t with
  | (t', false) => t' = t /\ starts_two_blanks (ts_text t) = false
  | (t', true) => starts_two_blanks (ts_text t) = true /\ ts_attrs t' = ts_attrs t /\ ts_style t' = ts_style t /\
      exists pre w rest, ts_chars t = pre ++ w :: rest /\ ts_chars t' = w :: rest /\ pre <> [] /\ (forall c, In c pre -> white_char c) /\
        white_char w /\ match rest with [] => True | c :: _ => is_white (ch_c c) = false end
  end.
Proof.
  unfold span_lstrip. cbv zeta. destruct (starts_two_blanks (ts_text t)) eqn:S; cbn [negb]; [|auto].
  destruct (white_run _ S) as (pre & w & rest & E & N & P & W & R & K). unfold ts_text in *. rewrite K.
  split; [reflexivity|]. split; [reflexivity|]. split; [reflexivity|]. exists pre, w, rest. split; [exact E|].
  split; [|split; [exact N|]; split; [exact P|]; split; [exact W|exact R]].
  cbn [set_chars ts_chars]. rewrite E, skipn_app, skipn_all, Nat.sub_diag. reflexivity.
Qed.
Lemma rstrip_spec t : match span_rstrip t with
  | (t', false) => t' = t /\ starts_two_blanks (rev (ts_text t)) = false
  | (t', true) => starts_two_blanks (rev (ts_text t)) = true /\ ts_attrs t' = ts_attrs t /\ ts_style t' = ts_style t /\
      exists rest w suf, ts_chars t = rest ++ w :: suf /\ ts_chars t' = rest ++ [w] /\ suf <> [] /\ (forall c, In c suf -> white_char c) /\
        white_char w /\ match rev rest with [] => True | c :: _ => is_white (ch_c c) = false end
  end.
Proof.
  unfold span_rstrip. cbv zeta. destruct (starts_two_blanks (rev (ts_text t))) eqn:Sb; cbn [negb]; [|auto].
  unfold ts_text in *. rewrite <- map_rev in Sb.
  destruct (white_run _ Sb) as (pre & w & rest & E & N & P & W & R & K). rewrite <- map_rev.
  replace (length (map ch_c (ts_chars t))) with (length (map ch_c (rev (ts_chars t)))) by (rewrite !map_length, rev_length; reflexivity).
  rewrite K. split; [reflexivity|]. split; [reflexivity|]. split; [reflexivity|].
  assert (E' : ts_chars t = rev rest ++ w :: rev pre).
  { rewrite <- (rev_involutive (ts_chars t)), E, rev_app_distr. cbn. rewrite <- app_assoc. reflexivity. }
  exists (rev rest), w, (rev pre). split; [exact E'|]. split.
  { cbn [set_chars ts_chars]. rewrite E'. rewrite app_length. cbn [length]. rewrite !rev_length.
    replace (length rest + S (length pre) - length pre)%nat with (length (rev rest ++ [w])) by (rewrite app_length, rev_length; cbn; lia).
    change (w :: rev pre) with ([w] ++ rev pre). rewrite app_assoc, firstn_app, firstn_all, Nat.sub_diag. cbn. rewrite app_nil_r. reflexivity. }
  split; [intros H; apply N; rewrite <- (rev_involutive pre), H; reflexivity|].
  split; [intros c Hc; apply P; rewrite in_rev; exact Hc|]. split; [exact W|]. rewrite rev_involutive. exact R.
Qed.
Lemma at_last_spec f ss : match ss with [] => at_last f ss = ([], false) | _ => exists pre s, ss = pre ++ [s] /\ at_last f ss = (pre ++ [fst (f s)], snd (f s)) end.
Proof.
  induction ss as [|s t IH]; [reflexivity|]. destruct t as [|s2 t].
  - exists [], s. cbn. destruct (f s). auto.
  - destruct IH as (pre & x & E & H). exists (s :: pre), x. cbn [app]. split; [f_equal; exact E|].
    cbn [at_last]. cbn [at_last] in H. rewrite H. reflexivity.
Qed.

(* ------------------------------------------------------------------ *)
(** * Joining lines *)
Lemma rows_of_concat ls : forall rows, concat (rows_of ls rows) = concat (rev (map (@rev line) rows)) ++ ls.
Proof.
  induction ls as [|l t IH]; intros rows; cbn [rows_of]; [rewrite app_nil_r; reflexivity|].
  assert (New : concat (rows_of t ([l] :: rows)) = concat (rev (map (@rev line) rows)) ++ l :: t).
  { rewrite IH. cbn [map rev]. rewrite concat_app. cbn. rewrite <- app_assoc. reflexivity. }
  destruct rows as [|[|p r] rs]; try exact New. destruct (same_row l p); [|exact New].
  rewrite IH. cbn [map rev]. rewrite !concat_app. cbn [concat]. rewrite !app_nil_r, <- !app_assoc. reflexivity.
Qed.
Lemma rows_of_nonempty ls : forall rows, (forall r, In r rows -> r <> []) -> forall r, In r (rows_of ls rows) -> r <> [].
Proof.
  induction ls as [|l t IH]; intros rows H r; cbn [rows_of].
  - rewrite <- in_rev. intros Hr. apply in_map_iff in Hr. destruct Hr as (x & <- & Hx). intros E. apply (H x Hx).
    rewrite <- (rev_involutive x), E. reflexivity.
  - assert (New : forall r, In r ([l] :: rows) -> r <> []) by (intros q [<-|Hq]; [discriminate|apply H; exact Hq]).
    destruct rows as [|[|p r0] rs]; try (apply IH; exact New). destruct (same_row l p); [|apply IH; exact New].
    apply IH. intros q [<-|Hq]; [discriminate|]. apply H. right. exact Hq.
Qed.
Lemma concat_map_perm {A} (f : list A -> list A) (ll : list (list A)) : (forall l, Permutation l (f l)) -> Permutation (concat ll) (concat (map f ll)).
Proof. intros H. induction ll as [|l t IH]; cbn; [constructor|]. apply Permutation_app; [apply H|exact IH]. Qed.
Lemma lines_sort_perm ls : Permutation ls (lines_sort ls).
Proof.
  unfold lines_sort. cbv zeta. eapply Permutation_trans; [|apply concat_map_perm; intros l; apply py_sort_perm].
  rewrite rows_of_concat. cbn. apply py_sort_perm.
Qed.

Lemma normal_truthy l : normal_line l -> ln_bool l = true.
Proof. intros (P & _). apply proper_truthy. exact P. Qed.
Lemma union_proper a b : proper a -> rect_decimal a -> valid b -> rect_decimal b -> proper (union_bbox a b) /\ rect_decimal (union_bbox a b) /\ covers (union_bbox a b) a.
Proof.
  intros P D V E. unfold union_bbox. pose proof (runion_decimal a b D E) as DU. pose proof (rround_fixed _ DU) as (F1 & F2 & F3 & F4).
  assert (U : proper (runion a b) /\ covers (runion a b) a).
  { unfold runion. destruct (rect_empty b) eqn:Eb; [split; [exact P|unfold covers; repeat split; apply Qle_refl]|].
    apply (rect_empty_false b V) in Eb. pose proof (runion_covers a b P Eb) as (C1 & _ & C3 & _).
    unfold runion in C1, C3. rewrite (proper_nonempty _ P) in C1, C3 |- *. rewrite (proper_nonempty _ Eb) in C1, C3. split; assumption. }
  destruct U as ((U1 & U2) & C1 & C2 & C3 & C4). split; [split; rewrite F1, F3 || rewrite F2, F4; assumption|].
  split; [apply rround_decimal|]. unfold covers. rewrite F1, F2, F3, F4. auto.
Qed.
Lemma line_add_all_normal ss : forall l, proper (ln_bbox l) -> rect_decimal (ln_bbox l) ->
  (forall s, In s ss -> valid (span_bbox s) /\ rect_decimal (span_bbox s) /\ span_bool s = true) ->
  proper (ln_bbox (line_add_all l ss)) /\ rect_decimal (ln_bbox (line_add_all l ss)) /\ covers (ln_bbox (line_add_all l ss)) (ln_bbox l).
Proof.
  unfold line_add_all. induction ss as [|s t IH]; intros l P D H; cbn [fold_left].
  - split; [exact P|]. split; [exact D|]. unfold covers. repeat split; apply Qle_refl.
  - destruct (H s (or_introl eq_refl)) as (V & E & B). destruct (union_proper _ _ P D V E) as (P' & D' & C').
    destruct (IH (line_add l s)) as (Q1 & Q2 & Q3).
    + unfold line_add. rewrite B. exact P'.
    + unfold line_add. rewrite B. exact D'.
    + intros x Hx. apply H. right. exact Hx.
    + split; [exact Q1|]. split; [exact Q2|]. assert (Eb : ln_bbox (line_add l s) = union_bbox (ln_bbox l) (span_bbox s)) by (unfold line_add; rewrite B; reflexivity).
      set (q := fold_left line_add t (line_add l s)) in *. clearbody q. rewrite Eb in Q3.
      unfold covers in *. destruct Q3 as (? & ? & ? & ?), C' as (? & ? & ? & ?). repeat split; lra.
Qed.
Lemma covers_refl' r : covers r r. Proof. unfold covers. repeat split; apply Qle_refl. Qed.
Lemma single_joined l : joined_from l [l].
Proof. split; [cbn; rewrite app_nil_r; reflexivity|]. split; [reflexivity|apply covers_refl']. Qed.
Lemma merged_joined g : g <> [] -> (forall l, In l g -> normal_line l) ->
  exists r, merged_line g = [r] /\ joined_from r g /\ ln_bool r = true.
Proof.
  destruct g as [|l t]; [congruence|]. intros _ H. cbn [merged_line]. eexists. split; [reflexivity|].
  assert (Hs : forall s, In s (concat (map ln_spans t)) -> valid (span_bbox s) /\ rect_decimal (span_bbox s) /\ span_bool s = true).
  { intros s Hs. apply in_concat in Hs. destruct Hs as (ss & Hss & Hs). apply in_map_iff in Hss. destruct Hss as (x & <- & Hx).
    apply (H x (or_intror Hx)). exact Hs. }
  destruct (H l (or_introl eq_refl)) as (P & D & _).
  destruct (line_add_all_normal _ l P D Hs) as (P' & _ & C').
  destruct (line_add_all_spans (concat (map ln_spans t)) l (fun s Hx => proj2 (proj2 (Hs s Hx)))) as (E1 & E2).
  split; [split; [rewrite E1; reflexivity|split; [exact E2|exact C']]|]. apply proper_truthy. exact P'.
Qed.
Lemma keep_all ls : (forall l, In l ls -> ln_bool l = true) -> keep_lines ls = ls.
Proof. induction ls as [|l t IH]; intros H; cbn; [reflexivity|]. rewrite (H l (or_introl eq_refl)). f_equal. apply IH. intros x Hx. apply H. right. exact Hx. Qed.
Lemma overlap_test thr l pre : 1 # 1000000 < thr -> proper (ln_bbox l) -> proper (ln_bbox pre) ->
  match get_main_bbox (ln_bbox l) (ln_bbox pre) thr with Some m => rect_bool m | None => false end = true <-> overlapping thr l pre.
Proof.
  intros T P Q. unfold overlapping. rewrite <- (main_bbox_ratio _ _ thr P Q T).
  destruct (get_main_bbox (ln_bbox l) (ln_bbox pre) thr) as [m|] eqn:G; [|split; [discriminate|intros X; exfalso; apply X; reflexivity]].
  split; [intros _; discriminate|]. intros _. apply proper_truthy.
  assert (m = runion (ln_bbox l) (ln_bbox pre)).
  { unfold get_main_bbox in G. cbv zeta in G. destruct (rect_bool _); [|discriminate]. destruct (qle _ _); [|discriminate]. congruence. }
  subst m. apply runion_covers; assumption.
Qed.
Lemma row_pairs_snoc g l : row_pairs g -> forallb (same_row l) g = true -> row_pairs (g ++ [l]).
Proof.
  intros H F i j a b Hij Ha Hb. rewrite forallb_forall in F.
  assert (j < length (g ++ [l]))%nat by (apply nth_error_Some; congruence). rewrite app_length in *. cbn [length] in *.
  rewrite nth_error_app1 in Ha by lia. destruct (Nat.eq_dec j (length g)) as [->|Nj].
  - rewrite nth_error_app2, Nat.sub_diag in Hb by lia. cbn in Hb. injection Hb as <-. apply F. eapply nth_error_In; exact Ha.
  - rewrite nth_error_app1 in Hb by lia. exact (H i j a b Hij Ha Hb).
Qed.
Lemma single_good m s l : good_group m s [l].
Proof. split; [discriminate|]. split; [|intros b []]. intros i j a b Hij Ha Hb. destruct j as [|[|j]]; [lia|discriminate|discriminate]. Qed.
Lemma keep_app a b : keep_lines (a ++ b) = keep_lines a ++ keep_lines b. Proof. apply filter_app. Qed.
Lemma join_loop_spec thr merging sorted : 1 # 1000000 < thr -> (forall l, In l sorted -> normal_line l) ->
  forall ls k pre cand out gout,
  nth_error sorted k = Some pre -> ls = skipn (S k) sorted -> incl cand sorted ->
  (cand = [] \/ row_pairs cand /\ forall b, In b (tl cand) -> close_pred merging sorted b) ->
  Forall2 joined_from out gout -> (forall g, In g gout -> good_group merging sorted g) -> (forall r, In r out -> ln_bool r = true) ->
  exists K gs, kept_lines thr pre ls K /\ concat gs = concat gout ++ cand ++ K /\
    Forall2 joined_from (join_loop thr merging pre ls cand out) gs /\ (forall g, In g gs -> good_group merging sorted g) /\
    (forall r, In r (join_loop thr merging pre ls cand out) -> ln_bool r = true).
Proof.
  intros T N. induction ls as [|l t IH]; intros k pre cand out gout Hk Hls Hc Hg F G B; cbn [join_loop].
  - exists []. destruct cand as [|c ct].
    + exists gout. cbn [merged_line keep_lines filter app]. rewrite !app_nil_r. split; [constructor|]. split; [reflexivity|]. split; [exact F|]. split; [exact G|exact B].
    + destruct Hg as [|(Rp & Cp)]; [discriminate|].
      destruct (merged_joined (c :: ct)) as (r & E & J & Br); [discriminate|intros x Hx; apply N, Hc; exact Hx|].
      exists (gout ++ [c :: ct]). split; [constructor|]. rewrite concat_app. cbn [concat]. rewrite !app_nil_r. split; [reflexivity|].
      rewrite E. rewrite keep_all by (intros x [<-|[]]; exact Br).
      split; [apply Forall2_app; [exact F|constructor; [exact J|constructor]]|].
      split; [intros g Hx; apply in_app_or in Hx; destruct Hx as [Hx|[<-|[]]]; [apply G; exact Hx|split; [discriminate|auto]]|].
      intros x Hx. apply in_app_or in Hx. destruct Hx as [Hx|[<-|[]]]; [apply B; exact Hx|exact Br].
  - assert (Hk' : nth_error sorted (S k) = Some l /\ t = skipn (S (S k)) sorted).
    { assert (X : forall (q : list line) n x y, x :: y = skipn n q -> nth_error q n = Some x /\ y = skipn (S n) q).
      { induction q as [|a q IHq]; intros [|n] x y E; cbn in E; try discriminate; [injection E as -> ->; auto|].
        destruct (IHq n x y E) as (E1 & E2). split; [exact E1|exact E2]. }
      apply X. exact Hls. }
    destruct Hk' as (Hk1 & Ht).
    assert (Nl : normal_line l) by (apply N; eapply nth_error_In; exact Hk1).
    assert (Np : normal_line pre) by (apply N; eapply nth_error_In; exact Hk).
    pose proof (overlap_test thr l pre T (proj1 Nl) (proj1 Np)) as Ov.
    destruct (match get_main_bbox (ln_bbox l) (ln_bbox pre) thr with Some m => rect_bool m | None => false end) eqn:Om.
    + destruct (IH (S k) l cand out gout Hk1 Ht Hc Hg F G B) as (K & gs & K1 & K2 & K3). exists K, gs.
      split; [apply kept_drop; [apply Ov; reflexivity|exact K1]|]. split; [exact K2|exact K3].
    + assert (No : ~ overlapping thr l pre) by (intros H; apply Ov in H; discriminate).
      destruct (negb (same_row l pre) || qlt merging (qabs (rx0 (ln_bbox l) - rx1 (ln_bbox pre)))) eqn:Far.
      * destruct cand as [|c ct].
        -- destruct (IH (S k) l [] (out ++ keep_lines (merged_line []) ++ keep_lines [l]) (gout ++ [[l]]) Hk1 Ht) as (K & gs & K1 & K2 & K3).
           ++ intros x [].
           ++ left. reflexivity.
           ++ cbn [merged_line keep_lines filter app]. rewrite (normal_truthy l Nl). apply Forall2_app; [exact F|constructor; [apply single_joined|constructor]].
           ++ intros g Hx. apply in_app_or in Hx. destruct Hx as [Hx|[<-|[]]]; [apply G; exact Hx|apply single_good].
           ++ intros x Hx. cbn [merged_line keep_lines filter app] in Hx. rewrite (normal_truthy l Nl) in Hx. apply in_app_or in Hx. destruct Hx as [Hx|[<-|[]]]; [apply B; exact Hx|apply normal_truthy; exact Nl].
           ++ exists (l :: K), gs. split; [apply kept_keep; assumption|]. split; [|exact K3].
              rewrite K2, concat_app. cbn. rewrite <- app_assoc. reflexivity.
        -- destruct Hg as [|(Rp & Cp)]; [discriminate|].
           destruct (merged_joined (c :: ct)) as (r & E & J & Br); [discriminate|intros x Hx; apply N, Hc; exact Hx|].
           assert (Eo : out ++ keep_lines (merged_line (c :: ct)) ++ keep_lines [l] = out ++ [r; l]).
           { rewrite E. cbn [keep_lines filter]. rewrite Br, (normal_truthy l Nl). reflexivity. }
           rewrite Eo.
           destruct (IH (S k) l [] (out ++ [r; l]) (gout ++ [c :: ct; [l]]) Hk1 Ht) as (K & gs & K1 & K2 & K3).
           ++ intros x [].
           ++ left. reflexivity.
           ++ apply Forall2_app; [exact F|]. constructor; [exact J|]. constructor; [apply single_joined|constructor].
           ++ intros g Hx. apply in_app_or in Hx. destruct Hx as [Hx|[<-|[<-|[]]]]; [apply G; exact Hx|split; [discriminate|auto]|apply single_good].
           ++ intros x Hx. apply in_app_or in Hx. destruct Hx as [Hx|[<-|[<-|[]]]]; [apply B; exact Hx|exact Br|apply normal_truthy; exact Nl].
           ++ exists (l :: K), gs. split; [apply kept_keep; assumption|]. split; [|exact K3].
              rewrite K2, concat_app. cbn [concat app]. rewrite <- !app_assoc. cbn. rewrite <- ?app_assoc. reflexivity.
      * apply orb_false_iff in Far. destruct Far as (Sr & Gp). apply negb_false_iff in Sr.
        assert (Cl : close_pred merging sorted l).
        { exists k, pre. split; [exact Hk|]. split; [exact Hk1|]. split; [exact Sr|]. destruct (qlt_spec merging (qabs (rx0 (ln_bbox l) - rx1 (ln_bbox pre)))); [discriminate|lra]. }
        destruct (forallb (same_row l) cand) eqn:Fb.
        -- destruct (IH (S k) l (cand ++ [l]) out gout Hk1 Ht) as (K & gs & K1 & K2 & K3).
           ++ intros x Hx. apply in_app_or in Hx. destruct Hx as [Hx|[<-|[]]]; [apply Hc; exact Hx|eapply nth_error_In; exact Hk1].
           ++ right. destruct Hg as [->|(Rp & Cp)].
              ** cbn. split; [apply (single_good merging sorted l)|intros b []].
              ** split; [apply row_pairs_snoc; assumption|]. intros b Hb. destruct cand as [|c ct]; [destruct Hb|].
                 cbn in Hb. apply in_app_or in Hb. destruct Hb as [Hb|[<-|[]]]; [apply Cp; exact Hb|exact Cl].
           ++ exact F.
           ++ exact G.
           ++ exact B.
           ++ exists (l :: K), gs. split; [apply kept_keep; assumption|]. split; [|exact K3]. rewrite K2, <- !app_assoc. reflexivity.
        -- assert (Kc : keep_lines cand = cand) by (apply keep_all; intros x Hx; apply normal_truthy, N, Hc; exact Hx).
           assert (Kl : keep_lines [l] = [l]) by (apply keep_all; intros x [<-|[]]; apply normal_truthy; exact Nl).
           rewrite Kc, Kl.
           assert (Cat : forall q : list line, concat (map (fun x => [x]) q) = q) by (induction q as [|x q IHq]; cbn; [reflexivity|f_equal; exact IHq]).
           destruct (IH (S k) l [] (out ++ cand ++ [l]) (gout ++ map (fun x => [x]) (cand ++ [l])) Hk1 Ht) as (K & gs & K1 & K2 & K3).
           ++ intros x [].
           ++ left. reflexivity.
           ++ apply Forall2_app; [exact F|]. generalize (cand ++ [l]). intros q. induction q; cbn; constructor; [apply single_joined|assumption].
           ++ intros g Hx. apply in_app_or in Hx. destruct Hx as [Hx|Hx]; [apply G; exact Hx|]. apply in_map_iff in Hx. destruct Hx as (x & <- & _). apply single_good.
           ++ intros x Hx. apply in_app_or in Hx. destruct Hx as [Hx|Hx]; [apply B; exact Hx|]. apply in_app_or in Hx.
              destruct Hx as [Hx|[<-|[]]]; [apply normal_truthy, N, Hc; exact Hx|apply normal_truthy; exact Nl].
           ++ exists (l :: K), gs. split; [apply kept_keep; assumption|]. split; [|exact K3].
              rewrite K2, concat_app, Cat, <- !app_assoc. reflexivity.
Qed.

(* ------------------------------------------------------------------ *)
(** * Order of the sorted lines *)
Lemma sorted_split (S : list line) (f : line -> Q) (c : Q) : StronglySorted (fun a b => f a <= f b) S ->
  S = filter (fun x => qlt (f x) c) S ++ filter (fun x => negb (qlt (f x) c)) S.
Proof.
  induction 1 as [|x t Ht IH Hx]; [reflexivity|]. cbn [filter]. destruct (qlt_spec (f x) c) as [L|G]; cbn [negb].
  - cbn [app]. f_equal. exact IH.
  - assert (E : filter (fun x => qlt (f x) c) t = []).
    { apply filter_none. intros y Hy. rewrite Forall_forall in Hx. specialize (Hx y Hy). destruct (qlt_spec (f y) c); [lra|reflexivity]. }
    rewrite E in *. cbn [app]. f_equal. exact IH.
Qed.
Lemma filter_perm {A} (p : A -> bool) l l' : Permutation l l' -> Permutation (filter p l) (filter p l').
Proof.
  induction 1; cbn; [constructor| | |eapply Permutation_trans; eassumption].
  - destruct (p x); [constructor|]; assumption.
  - destruct (p x), (p y); try apply Permutation_refl; apply perm_swap.
Qed.
Lemma filter_all {A} (p : A -> bool) l : (forall x, In x l -> p x = true) -> filter p l = l.
Proof. induction l as [|x t IH]; intros H; [reflexivity|]. cbn. rewrite (H x (or_introl eq_refl)). f_equal. apply IH. intros y Hy. apply H. right. exact Hy. Qed.
Lemma min_exists (f : line -> Q) x l : exists c, (exists y, In y (x :: l) /\ c = f y) /\ forall y, In y (x :: l) -> c <= f y.
Proof.
  revert x. induction l as [|z t IH]; intros x.
  - exists (f x). split; [exists x; split; [left; reflexivity|reflexivity]|]. intros y [<-|[]]. apply Qle_refl.
  - destruct (IH z) as (c & (y & Hy & Ec) & Hc). destruct (Qlt_le_dec (f x) c) as [L|G].
    + exists (f x). split; [exists x; split; [left; reflexivity|reflexivity]|]. intros w [<-|Hw]; [apply Qle_refl|]. specialize (Hc w Hw). lra.
    + exists c. split; [exists y; split; [right; exact Hy|exact Ec]|]. intros w [<-|Hw]; [exact G|apply Hc; exact Hw].
Qed.
Lemma sorted_rows h : forall rows S, clear_rows h rows -> StronglySorted (fun a b => row_start h a <= row_start h b) S ->
  Permutation (concat rows) S -> exists rows', S = concat rows' /\ Forall2 (fun r r' => Permutation r r') rows rows'.
Proof.
  induction rows as [|r rows IH]; intros S (C1 & C2) Sd P.
  - exists []. cbn in P. apply Permutation_nil in P. subst S. split; [reflexivity|constructor].
  - inversion C2 as [|? ? Hr Hrs]; subst. cbn [concat] in P.
    destruct rows as [|r2 rows].
    + exists [S]. cbn [concat] in *. rewrite app_nil_r in *. split; [reflexivity|]. constructor; [exact P|constructor].
    + destruct (C1 r2 (or_intror (or_introl eq_refl))) as (N2 & _). destruct r2 as [|x r2]; [congruence|].
      set (rest := concat ((x :: r2) :: rows)) in *.
      destruct (min_exists (row_start h) x (r2 ++ concat rows)) as (c & (y & Hy & Ec) & Hc).
      assert (Er : rest = x :: r2 ++ concat rows) by reflexivity. rewrite <- Er in Hy, Hc.
      assert (Lt : forall a, In a r -> row_start h a < c).
      { intros a Ha. rewrite Ec. unfold rest in Hy. apply in_concat in Hy. destruct Hy as (q & Hq & Hy). rewrite Forall_forall in Hr. apply (Hr q Hq a y Ha Hy). }
      rewrite (sorted_split S (row_start h) c Sd).
      pose proof (filter_perm (fun x => qlt (row_start h x) c) _ _ P) as P1. pose proof (filter_perm (fun x => negb (qlt (row_start h x) c)) _ _ P) as P2.
      rewrite filter_app in P1, P2.
      assert (A1 : filter (fun x => qlt (row_start h x) c) r = r) by (apply filter_all; intros a Ha; apply qlt_iff; apply Lt; exact Ha).
      assert (A2 : filter (fun x => negb (qlt (row_start h x) c)) r = []).
      { apply filter_none. intros a Ha. specialize (Lt a Ha). destruct (qlt_spec (row_start h a) c); [reflexivity|lra]. }
      assert (B1 : filter (fun x => qlt (row_start h x) c) rest = []).
      { apply filter_none. intros a Ha. specialize (Hc a Ha). destruct (qlt_spec (row_start h a) c); [lra|reflexivity]. }
      assert (B2 : filter (fun x => negb (qlt (row_start h x) c)) rest = rest).
      { apply filter_all. intros a Ha. specialize (Hc a Ha). destruct (qlt_spec (row_start h a) c); [lra|reflexivity]. }
      rewrite A1, B1, app_nil_r in P1. rewrite A2, B2 in P2. cbn [app] in P2.
      destruct (IH (filter (fun x => negb (qlt (row_start h x) c)) S)) as (rows' & E & F).
      * split; [intros q Hq; apply C1; right; exact Hq|exact Hrs].
      * clear - Sd. induction Sd as [|a t St IH Ha]; [constructor|]. cbn [filter]. destruct (negb _); [|exact IH].
        constructor; [exact IH|]. rewrite Forall_forall in *. intros z Hz. apply filter_In in Hz. apply Ha, Hz.
      * exact P2.
      * exists (filter (fun x => qlt (row_start h x) c) S :: rows'). cbn [concat]. rewrite <- E. split; [reflexivity|]. constructor; [exact P1|exact F].
Qed.
Lemma rows_of_within q : forall p r rest rows, (forall a b, In a (q ++ p :: r) -> In b (q ++ p :: r) -> same_row a b = true) ->
  rows_of (q ++ rest) ((p :: r) :: rows) = rows_of rest ((rev q ++ p :: r) :: rows).
Proof.
  induction q as [|x q IH]; intros p r rest rows H; [reflexivity|]. cbn [app rows_of].
  rewrite (H x p); [|left; reflexivity|right; apply in_or_app; right; left; reflexivity].
  rewrite IH.
  - cbn [rev]. rewrite <- app_assoc. reflexivity.
  - assert (I : forall a, In a (q ++ x :: p :: r) -> In a ((x :: q) ++ p :: r)).
    { intros a Ha. apply in_app_or in Ha. destruct Ha as [Ha|[<-|Ha]]; [right; apply in_or_app; left; exact Ha|left; reflexivity|right; apply in_or_app; right; exact Ha]. }
    intros a b Ha Hb. apply H; apply I; assumption.
Qed.
Definition row_break (l : line) (rows : list (list line)) : Prop :=
  match rows with (p :: _) :: _ => same_row l p = false | [] :: _ => True | [] => True end.
Lemma rows_of_clear h : forall rows acc, clear_rows h rows -> (forall r l, In r rows -> In l r -> row_break l acc) ->
  rows_of (concat rows) acc = rev (map (@rev line) acc) ++ rows.
Proof.
  induction rows as [|r rows IH]; intros acc (C1 & C2) H; cbn [concat].
  - cbn [rows_of]. rewrite app_nil_r. reflexivity.
  - destruct (C1 r (or_introl eq_refl)) as (Nr & Rr). destruct r as [|x r]; [congruence|]. cbn [app].
    inversion C2 as [|? ? Hr Hrs]; subst.
    assert (E : forall rest, rows_of (x :: rest) acc = rows_of rest ([x] :: acc)).
    { intros rest. cbn [rows_of]. destruct acc as [|[|p q] acc']; [reflexivity|reflexivity|].
      specialize (H (x :: r) x (or_introl eq_refl) (or_introl eq_refl)). cbn in H. rewrite H. reflexivity. }
    rewrite E. rewrite (rows_of_within r x [] (concat rows) acc).
    + rewrite IH.
      * cbn [map rev]. rewrite rev_app_distr, rev_involutive. cbn [rev app]. rewrite <- app_assoc. reflexivity.
      * split; [intros q Hq; apply C1; right; exact Hq|exact Hrs].
      * intros q l Hq Hl. assert (Hx : forall p, In p (x :: r) -> same_row l p = false).
        { intros p Hp. rewrite Forall_forall in Hr. apply (Hr q Hq p l Hp Hl). }
        destruct r as [|y r] using rev_ind; [cbn; apply Hx; left; reflexivity|]. rewrite rev_app_distr. cbn. apply Hx. right. apply in_or_app. right. left. reflexivity.
    + intros a b Ha Hb. assert (I : forall a, In a (r ++ [x]) -> In a (x :: r)) by (intros z Hz; apply in_app_or in Hz; destruct Hz as [Hz|[<-|[]]]; [right; exact Hz|left; reflexivity]).
      apply Rr; apply I; assumption.
Qed.
Definition row_pos (horizontal : bool) (l : line) : Q := if horizontal then rx0 (ln_bbox l) else ry1 (ln_bbox l).
Lemma sort_by_sorted (f : line -> Q) l : StronglySorted (fun a b => f a <= f b) (sort_key (fun x => [f x]) l).
Proof.
  pose proof (py_sort_sorted (fun a b : line => lex_le [f a] [f b])) as X.
  specialize (X (fun a b => lex_le_total [f a] [f b]) (fun a b c => lex_le_trans [f a] [f b] [f c]) l).
  unfold sort_key. induction X as [|a t St IH Ha]; constructor; [exact IH|]. rewrite Forall_forall in *. intros z Hz. specialize (Ha z Hz).
  cbn in Ha. destruct (qeq_spec (f a) (f z)) as [E|E]; [lra|]. apply qlt_iff in Ha. lra.
Qed.
Lemma reading_sorted h l : StronglySorted (fun a b => row_start h a <= row_start h b) (sort_key (line_reading_key h) l).
Proof.
  pose proof (py_sort_sorted (fun a b : line => lex_le (line_reading_key h a) (line_reading_key h b))) as X.
  specialize (X (fun a b => lex_le_total _ _) (fun a b c => lex_le_trans _ _ _) l).
  unfold sort_key. induction X as [|a t St IH Ha]; constructor; [exact IH|]. rewrite Forall_forall in *. intros z Hz. specialize (Ha z Hz).
  unfold line_reading_key, row_start in *. destruct h; cbn [lex_le] in Ha;
  match type of Ha with (if qeq ?u ?v then _ else _) = _ => destruct (qeq_spec u v) as [E|E]; [lra|apply qlt_iff in Ha; lra] end.
Qed.
Lemma lines_sort_rows ls rows : Permutation ls (concat rows) -> clear_rows (is_horizontal (lines_dir ls)) rows ->
  exists rows', lines_sort ls = concat rows' /\
    Forall2 (fun r r' => Permutation r r' /\ StronglySorted (fun a b => row_pos (is_horizontal (lines_dir ls)) a <= row_pos (is_horizontal (lines_dir ls)) b) r') rows rows'.
Proof.
  intros P C. unfold lines_sort. set (h := is_horizontal (lines_dir ls)) in *. cbv zeta. clearbody h.
  destruct (sorted_rows h rows (sort_key (line_reading_key h) ls) C (reading_sorted h ls)) as (rows1 & E & F).
  { eapply Permutation_trans; [apply Permutation_sym; exact P|apply py_sort_perm]. }
  assert (C' : clear_rows h rows1).
  { destruct C as (C1 & C2). split.
    - clear C2 E P. induction F as [|r r' rs rs' Pr F IH]; intros q Hq; [destruct Hq|]. destruct Hq as [<-|Hq].
      + destruct (C1 r (or_introl eq_refl)) as (N & R). split.
        * intros ->. apply N. apply Permutation_nil. apply Permutation_sym. exact Pr.
        * intros a b Ha Hb. apply R; (eapply Permutation_in; [apply Permutation_sym; exact Pr|assumption]).
      + apply IH; [|exact Hq]. intros x Hx. apply C1. right. exact Hx.
    - clear C1 E P. induction F as [|r r' rs rs' Pr F IH]; [constructor|]. inversion C2 as [|? ? H1 H2]; subst. constructor; [|apply IH; exact H2].
      clear - H1 F Pr. induction F as [|q q' qs qs' Pq F IH]; [constructor|]. inversion H1 as [|? ? H3 H4]; subst. constructor; [|apply IH; exact H4].
      intros a b Ha Hb. apply H3; [eapply Permutation_in; [apply Permutation_sym; exact Pr|exact Ha]|eapply Permutation_in; [apply Permutation_sym; exact Pq|exact Hb]]. }
  rewrite E, (rows_of_clear h rows1 [] C') by (intros r l _ _; exact I). cbn [map rev app].
  eexists. split; [reflexivity|]. clear - F. induction F as [|r r' rs rs' Pr F IH]; cbn [map]; constructor; [|exact IH].
  split; [eapply Permutation_trans; [exact Pr|apply py_sort_perm]|].
  apply (sort_by_sorted (row_pos h)).
Qed.
