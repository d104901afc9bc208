(** Text format in one layout: characters stay, formats come from shapes, shapes change their meaning only. *)
From Verif Require Import LayoutSpec TextProof AssignProof.
From Coq Require Import List Permutation Lia.
Import ListNotations.
Open Scope Q_scope.

Definition text_meanings : list rtype := [R_UNDERLINE; R_STRIKE; R_HIGHLIGHT; R_UNDEFINED].
Definition usable (s : shape) : Prop := sh_type s = R_HYPERLINK \/ In (sh_type s) text_meanings.
Definition kin (s t : shape) : Prop := t = s \/ (In (sh_type t) text_meanings /\ t = BorderModel.set_type s (sh_type t)).
Lemma kin_trans a b c : kin a b -> kin b c -> kin a c.
Proof. intros [->|[H1 H1']] [->|[H2 H2']]; unfold kin; auto. right. split; [exact H2|]. rewrite H2', H1' at 1. reflexivity. Qed.
Lemma kin_format a b f : kin a b -> format_of b f -> format_of a f.
Proof. intros [->|[_ E]]; [auto|]. rewrite E. auto. Qed.
Lemma kin_box a b : kin a b -> sh_bbox b = sh_bbox a.
Proof. intros [->|[_ E]]; [reflexivity|]. rewrite E. reflexivity. Qed.
Lemma kin_usable a b : kin a b -> usable a -> usable b.
Proof. intros [->|[H _]] U; [exact U|right; exact H]. Qed.
Lemma style_type_meaning h t s : In (sh_type s) text_meanings -> In (style_type h t s) text_meanings.
Proof.
  intros H. unfold style_type. destruct (qle _ _); [destruct (_ && _); [cbn; auto|exact H]|]. destruct (qle _ _); [cbn; auto|]. destruct (_ && _); cbn; auto.
Qed.
(** The shape after, and the formats added. *)
Definition grown (s : shape) (a b : list style) : Prop := exists new, b = a ++ new /\ forall f, In f new -> format_of s f.
Lemma grown_refl s a : grown s a a.
Proof. exists []. rewrite app_nil_r. split; [reflexivity|intros f []]. Qed.
Lemma parse_format_from h t s : usable s -> kin s (snd (parse_format h t s)) /\ grown s (ts_style t) (ts_style (fst (parse_format h t s))).
Proof.
  intros [U|M].
  - unfold parse_format. rewrite U. cbn [fst snd]. split; [left; reflexivity|]. eexists. split; [reflexivity|]. intros f [<-|[]]. split; [reflexivity|right; split; reflexivity].
  - assert (E : parse_format h t s = if rtype_eqb (style_type h t s) R_UNDEFINED then (t, set_type s (style_type h t s))
         else (add_style t (mkStyle (style_type h t s) (sh_color s) 0), set_type s (style_type h t s))).
    { unfold parse_format. destruct (sh_type s); try reflexivity; exfalso; cbn in M; intuition discriminate. }
    rewrite E. assert (K : kin s (set_type s (style_type h t s))) by (right; split; [apply style_type_meaning; exact M|reflexivity]).
    pose proof (style_type_meaning h t s M) as SM.
    destruct (rtype_eqb (style_type h t s) R_UNDEFINED) eqn:Eu; cbn [fst snd]; (split; [exact K|]); [apply grown_refl|].
    eexists; split; [reflexivity|]. intros f [<-|[]]. split; [reflexivity|]. left. cbn [st_type].
    destruct SM as [<-|[<-|[<-|[SM|[]]]]]; [cbn; auto|cbn; auto|cbn; auto|rewrite <- SM in Eu; discriminate Eu].
Qed.
Definition grows (s : shape) (old new : list (glyph * list style)) : Prop :=
  forall g, In g new -> exists st, In (fst g, st) old /\ grown s st (snd g).
Lemma grows_refl s l : grows s l l.
Proof. intros [g st] H. exists st. split; [exact H|apply grown_refl]. Qed.
Lemma split_span_from h t s : usable s -> kin s (snd (split_span h t s)) /\ grows s (styled [SText t]) (styled (map SText (fst (split_span h t s)))).
Proof.
  intros U. split.
  - unfold split_span. cbv zeta. destruct (negb _); [left; reflexivity|]. cbn [snd]. destruct (first_index _ _); [|left; reflexivity].
    match goal with |- context [parse_format h ?x s] => pose proof (proj1 (parse_format_from h x s U)) as K; destruct (parse_format h x s) end. exact K.
  - assert (H : forall u, In u (fst (split_span h t s)) -> incl (ts_chars u) (ts_chars t) /\ ts_attrs u = ts_attrs t /\ grown s (ts_style t) (ts_style u)).
    { intros u Hu. split; [|split].
      - destruct (split_span_shape h t s) as (ps & E & _ & C & _). rewrite E in Hu. rewrite <- C. intros c Hc. apply in_concat. exists (ts_chars u). split; [apply in_map; exact Hu|exact Hc].
      - destruct (split_span_shape h t s) as (ps & E & X & _). rewrite E in Hu. apply (X u Hu).
      - unfold split_span in Hu. cbv zeta in Hu. destruct (negb _); [destruct Hu as [<-|[]]; apply grown_refl|]. cbn [fst] in Hu.
        apply in_app_or in Hu. destruct Hu as [Hu|Hu].
        + destruct (first_index _ _) as [[|p]|]; try (destruct Hu; fail). destruct Hu as [<-|[]]. apply grown_refl.
        + apply in_app_or in Hu. destruct Hu as [Hu|Hu].
          * destruct (first_index _ _) as [p|]; [|destruct Hu].
            match type of Hu with context [parse_format h ?x s] => pose proof (proj2 (parse_format_from h x s U)) as K; destruct (parse_format h x s) end.
            destruct Hu as [<-|[]]. exact K.
          * destruct (_ <? _)%nat; [|destruct Hu]. destruct Hu as [<-|[]]. apply grown_refl. }
    intros g Hg. unfold styled in Hg. apply in_flat_map in Hg. destruct Hg as (x & Hx & Hg). apply in_map_iff in Hx. destruct Hx as (u & <- & Hu).
    destruct (H u Hu) as (I & A & G). cbn [span_glyphs] in Hg. apply in_map_iff in Hg. destruct Hg as (c & <- & Hc). cbn [fst snd]. exists (ts_style t). split; [|exact G].
    unfold styled. cbn [flat_map span_glyphs]. rewrite app_nil_r, A. apply in_map_iff. exists c. split; [reflexivity|apply I; exact Hc].
Qed.
Lemma grows_kin s s' a b : kin s s' -> grows s' a b -> grows s a b.
Proof. intros K H g Hg. destruct (H g Hg) as (st & H1 & new & H2 & H3). exists st. split; [exact H1|]. exists new. split; [exact H2|]. intros f Hf. eapply kin_format; eauto. Qed.
Lemma grows_app s a b c d : grows s a b -> grows s c d -> grows s (a ++ c) (b ++ d).
Proof.
  intros H1 H2 g Hg. apply in_app_or in Hg. destruct Hg as [Hg|Hg]; [destruct (H1 g Hg) as (st & A & B)|destruct (H2 g Hg) as (st & A & B)];
  exists st; (split; [apply in_or_app; auto|exact B]).
Qed.
Lemma split_spans_from h ss : forall s, usable s -> kin s (snd (split_spans h ss s)) /\ grows s (styled ss) (styled (fst (split_spans h ss s))).
Proof.
  induction ss as [|[t|k b] ss IH]; intros s U; cbn [split_spans].
  - split; [left; reflexivity|]. apply grows_refl.
  - destruct (split_span_from h t s U) as [K G]. destruct (split_span h t s) as [p s1] eqn:Es. cbn [fst snd] in K, G. destruct (IH s1 (kin_usable _ _ K U)) as [K2 G2].
    destruct (split_spans h ss s1) as [r s2] eqn:Er. cbn [fst snd] in *. split; [eapply kin_trans; eauto|]. rewrite styled_app. change (styled (SText t :: ss)) with (span_glyphs (SText t) ++ styled ss).
    apply grows_app; [|eapply grows_kin; eauto]. intros g Hg. destruct (G g Hg) as (st & H1 & H2). exists st. split; [|exact H2]. unfold styled in H1. cbn [flat_map] in H1. rewrite app_nil_r in H1. exact H1.
  - destruct (IH s U) as [K2 G2]. destruct (split_spans h ss s) as [r s2] eqn:Er. cbn [fst snd] in *. split; [exact K2|].
    change (styled (SImage k b :: ss)) with (span_glyphs (SImage k b) ++ styled ss). change (styled (SImage k b :: r)) with (span_glyphs (SImage k b) ++ styled r).
    apply grows_app; [apply grows_refl|exact G2].
Qed.
Lemma add_all_spans ss : forall l, ln_spans (line_add_all l ss) = ln_spans l ++ filter span_bool ss.
Proof.
  induction ss as [|s ss IH]; intros l; cbn [filter]; [rewrite app_nil_r; reflexivity|].
  change (line_add_all l (s :: ss)) with (line_add_all (line_add l s) ss). rewrite IH. unfold line_add. destruct (span_bool s); [|reflexivity].
  cbn [ln_spans]. rewrite <- app_assoc. reflexivity.
Qed.
Lemma add_all_dir ss : forall l, ln_dir (line_add_all l ss) = ln_dir l.
Proof. induction ss as [|s ss IH]; intros l; [reflexivity|]. change (line_add_all l (s :: ss)) with (line_add_all (line_add l s) ss). rewrite IH. unfold line_add. destruct (span_bool s); reflexivity. Qed.
Lemma lines_format_from ls : forall s, usable s -> kin s (snd (lines_format ls s)) /\ map ln_dir (fst (lines_format ls s)) = map ln_dir ls /\
  grows s (line_glyphs ls) (line_glyphs (fst (lines_format ls s))).
Proof.
  induction ls as [|l t IH]; intros s U; cbn [lines_format]; [split; [left; reflexivity|split; [reflexivity|apply grows_refl]]|].
  unfold line_glyphs in *. destruct (negb _).
  - destruct (qlt _ _); [split; [left; reflexivity|split; [reflexivity|apply grows_refl]]|]. destruct (IH s U) as (K & D & G). destruct (lines_format t s) as [t' s']. cbn [fst snd map flat_map] in *.
    split; [exact K|]. split; [rewrite D; reflexivity|]. apply grows_app; [apply grows_refl|exact G].
  - destruct (split_spans_from (is_horizontal (ln_dir l)) (ln_spans l) s U) as [K G]. destruct (split_spans _ (ln_spans l) s) as [ss s1]. cbn [fst snd] in *.
    destruct (IH s1 (kin_usable _ _ K U)) as (K2 & D2 & G2). destruct (lines_format t s1) as [t' s2]. cbn [fst snd map flat_map] in *.
    split; [eapply kin_trans; eauto|]. split; [rewrite D2; unfold line_reset; rewrite add_all_dir; reflexivity|]. apply grows_app; [|eapply grows_kin; eauto].
    unfold line_reset. rewrite add_all_spans. cbn [ln_spans app]. intros g Hg. apply G. unfold styled in *. apply in_flat_map in Hg. destruct Hg as (x & Hx & Hg). apply filter_In in Hx. apply in_flat_map. exists x. split; [apply Hx|exact Hg].
Qed.
Lemma applicable_usable bb s : applicable bb s = true -> usable s.
Proof. unfold applicable. intros H. apply andb_true_iff in H. destruct H as [H _]. unfold usable. destruct (sh_type s); try discriminate H; [right; cbn; auto|left; reflexivity]. Qed.

(* ---------------- the shapes ---------------- *)
Definition kins (a b : list shape) : Prop := Forall2 kin a b.
Lemma kins_refl a : kins a a.
Proof. induction a; constructor; [left; reflexivity|assumption]. Qed.
Lemma kins_trans a b c : kins a b -> kins b c -> kins a c.
Proof. intros H. revert c. induction H; intros c H'; inversion H'; subst; constructor; [eapply kin_trans; eauto|apply IHForall2; assumption]. Qed.
Lemma kins_length a b : kins a b -> List.length a = List.length b.
Proof. induction 1; cbn [List.length]; congruence. Qed.
Lemma kins_nth a b k : kins a b -> kin (nth k a empty_stroke) (nth k b empty_stroke).
Proof. intros H. revert k. induction H as [|x y a b S H IH]; intros [|k]; try (left; reflexivity); [exact S|apply IH]. Qed.
Lemma put_kins l : forall k s, kin (nth k l empty_stroke) s -> kins l (upd_at k (fun _ => s) l).
Proof. induction l as [|x l IH]; intros [|k] s K; cbn [upd_at]; try constructor; try exact K; try apply kins_refl; [left; reflexivity|apply IH; exact K]. Qed.
(** Formats from shapes of a list. *)
Definition styled_from (W : list shape) (ks : list nat) (old new : list (glyph * list style)) : Prop :=
  forall g, In g new -> exists st more, In (fst g, st) old /\ snd g = st ++ more /\ forall f, In f more -> exists k, In k ks /\ (k < List.length W)%nat /\ format_of (nth k W empty_stroke) f.
Lemma styled_from_refl W ks l : styled_from W ks l l.
Proof. intros [g st] H. exists st, []. rewrite app_nil_r. split; [exact H|]. split; [reflexivity|intros f []]. Qed.
Lemma styled_from_trans W ks a b c : styled_from W ks a b -> styled_from W ks b c -> styled_from W ks a c.
Proof.
  intros H1 H2 g Hg. destruct (H2 g Hg) as (st & m & A & B & C). destruct (H1 _ A) as (st' & m' & A' & B' & C'). cbn [fst snd] in *. exists st', (m' ++ m).
  split; [exact A'|]. split; [rewrite B, B', app_assoc; reflexivity|]. intros f Hf. apply in_app_or in Hf. destruct Hf; auto.
Qed.
Lemma styled_from_app W ks a b c d : styled_from W ks a b -> styled_from W ks c d -> styled_from W ks (a ++ c) (b ++ d).
Proof.
  intros H1 H2 g Hg. apply in_app_or in Hg. destruct Hg as [Hg|Hg]; [destruct (H1 g Hg) as (st & m & A & B & C)|destruct (H2 g Hg) as (st & m & A & B & C)];
  exists st, m; (split; [apply in_or_app; auto|]); (split; [exact B|exact C]).
Qed.
Lemma format_lines_from bb ks : forall w ls w' ls' W, kins W (w_shapes w) -> format_lines w bb ls ks = (w', ls') ->
  kins W (w_shapes w') /\ w_next w' = w_next w /\ map ln_dir ls' = map ln_dir ls /\ styled_from W ks (line_glyphs ls) (line_glyphs ls').
Proof.
  induction ks as [|k ks IH]; intros w ls w' ls' W Kw E; cbn [format_lines] in E.
  - injection E as <- <-. split; [exact Kw|]. split; [reflexivity|]. split; [reflexivity|]. apply styled_from_refl.
  - assert (St : forall x y, (if applicable bb (shape_at w k) then lines_format ls (shape_at w k) else (ls, shape_at w k)) = (x, y) ->
      kin (shape_at w k) y /\ map ln_dir x = map ln_dir ls /\ grows (shape_at w k) (line_glyphs ls) (line_glyphs x) /\ (x = ls \/ (k < List.length W)%nat)).
    { intros x y. destruct (applicable bb (shape_at w k)) eqn:A.
      - intros Ex. destruct (lines_format_from ls (shape_at w k) (applicable_usable _ _ A)) as (K & D & G). rewrite Ex in K, D, G. split; [exact K|]. split; [exact D|]. split; [exact G|]. right.
        destruct (Nat.lt_ge_cases k (List.length W)) as [L|L]; [exact L|]. exfalso. unfold shape_at in A. rewrite nth_overflow in A by (rewrite <- (kins_length _ _ Kw); exact L).
        unfold applicable, rintersects in A. rewrite !andb_true_iff in A. destruct A as (_ & (_ & A) & _). discriminate A.
      - intros Ex. injection Ex as <- <-. split; [left; reflexivity|]. split; [reflexivity|]. split; [apply grows_refl|left; reflexivity]. }
    destruct (if applicable bb (shape_at w k) then _ else _) as [ls1 s1]. destruct (St _ _ eq_refl) as (K & D & G & L). clear St. unfold shape_at in K, G.
    assert (Kw1 : kins W (w_shapes (put_shape k s1 w))) by (eapply kins_trans; [exact Kw|]; apply put_kins; exact K).
    destruct (IH _ _ _ _ W Kw1 E) as (H1 & H2 & H3 & H4). split; [exact H1|]. split; [exact H2|]. split; [rewrite H3; exact D|].
    eapply styled_from_trans; [destruct L as [->|L]; [apply styled_from_refl|]|intros g Hg; destruct (H4 g Hg) as (st & m & A & B & C); exists st, m; split; [exact A|]; split; [exact B|]; intros f Hf; destruct (C f Hf) as (j & Hj & F); exists j; split; [right; exact Hj|exact F]].
    intros g Hg. destruct (G g Hg) as (st & A & m & B & C). exists st, m. split; [exact A|]. split; [exact B|]. intros f Hf. exists k. split; [left; reflexivity|]. split; [exact L|].
    eapply kin_format; [|apply C; exact Hf]. apply kins_nth. exact Kw.
Qed.
(** A block before and after: a table stays, a text keeps its box and the directions of its lines. *)
Inductive reformatted (W : list shape) (ks : list nat) : lblock -> lblock -> Prop :=
| ref_table tb cs : reformatted W ks (LTable tb cs) (LTable tb cs)
| ref_text i bb ls ls' : map ln_dir ls' = map ln_dir ls -> styled_from W ks (line_glyphs ls) (line_glyphs ls') ->
    reformatted W ks (LText (mkBlk i bb ls)) (LText (mkBlk i bb ls')).
Lemma format_blocks_from ks bs : forall w w' bs' W, kins W (w_shapes w) -> format_blocks w ks bs = (w', bs') ->
  kins W (w_shapes w') /\ w_next w' = w_next w /\ Forall2 (reformatted W ks) bs bs'.
Proof.
  induction bs as [|b bs IH]; intros w w' bs' W Kw E; cbn [format_blocks] in E; [injection E as <- <-; split; [exact Kw|]; split; [reflexivity|constructor]|].
  destruct b as [t|tb cs].
  - destruct (format_lines w (b_bbox t) (b_lines t) ks) as [w1 ls] eqn:E1. destruct (format_blocks w1 ks bs) as [w2 r2] eqn:E2. injection E as <- <-.
    destruct (format_lines_from _ _ _ _ _ _ _ Kw E1) as (H1 & H2 & H3 & H4). destruct (IH _ _ _ _ H1 E2) as (G1 & G2 & G3). split; [exact G1|]. split; [congruence|]. constructor; [|exact G3].
    destruct t. constructor; assumption.
  - destruct (format_blocks w ks bs) as [w2 r2] eqn:E2. injection E as <- <-. destruct (IH _ _ _ _ Kw E2) as (G1 & G2 & G3). split; [exact G1|]. split; [exact G2|]. constructor; [constructor|exact G3].
Qed.

(* ---------------- with spans that have a box: nothing is lost either ---------------- *)
Definition good_texts (bs : list lblock) : Prop := forall t l, In (LText t) bs -> In l (b_lines t) -> good_line l.
Lemma format_lines_good bb ks : forall w ls w' ls', (forall l, In l ls -> good_line l) -> format_lines w bb ls ks = (w', ls') -> Forall2 line_ok ls ls'.
Proof.
  induction ks as [|k ks IH]; intros w ls w' ls' H E; cbn [format_lines] in E; [injection E as <- <-; apply lines_ok_refl; exact H|].
  assert (F : Forall2 line_ok ls (fst (if applicable bb (shape_at w k) then lines_format ls (shape_at w k) else (ls, shape_at w k)))).
  { destruct (applicable bb (shape_at w k)); [apply lines_format_ok; exact H|apply lines_ok_refl; exact H]. }
  destruct (if applicable bb (shape_at w k) then _ else _) as [ls1 s1]. cbn [fst] in F. eapply lines_ok_trans; [exact F|]. eapply IH; [|exact E]. apply (lines_ok_good _ _ F).
Qed.
Inductive only_formats : lblock -> lblock -> Prop :=
| of_table tb cs : only_formats (LTable tb cs) (LTable tb cs)
| of_text i bb ls ls' : Forall2 line_ok ls ls' -> only_formats (LText (mkBlk i bb ls)) (LText (mkBlk i bb ls')).
Lemma format_blocks_good ks bs : forall w w' bs', good_texts bs -> format_blocks w ks bs = (w', bs') -> Forall2 only_formats bs bs'.
Proof.
  induction bs as [|b bs IH]; intros w w' bs' H E; cbn [format_blocks] in E; [injection E as <- <-; constructor|].
  assert (H' : good_texts bs) by (intros t l Ht; apply H; right; exact Ht). destruct b as [t|tb cs].
  - destruct (format_lines w (b_bbox t) (b_lines t) ks) as [w1 ls] eqn:E1. destruct (format_blocks w1 ks bs) as [w2 r2] eqn:E2. injection E as <- <-. constructor; [|eapply IH; eauto].
    apply format_lines_good in E1; [|intros l; apply H; left; reflexivity]. destruct t. constructor. exact E1.
  - destruct (format_blocks w ks bs) as [w2 r2] eqn:E2. injection E as <- <-. constructor; [constructor|eapply IH; eauto].
Qed.
Lemma line_ok_text ls ls' : Forall2 line_ok ls ls' -> only_styles_added (line_glyphs ls) (line_glyphs ls').
Proof. unfold line_glyphs. induction 1 as [|x y xs ys (R & _) F IH]; [constructor|]. cbn [flat_map]. apply ext_app; assumption. Qed.
Lemma only_formats_text bs bs' : Forall2 only_formats bs bs' -> only_styles_added (text_of bs) (text_of bs').
Proof.
  unfold text_of. induction 1 as [|x y xs ys R F IH]; [constructor|]. cbn [flat_map]. apply ext_app; [|exact IH]. destruct R as [tb cs|i bb ls ls' R]; [apply ext_refl|].
  cbn [block_text b_lines]. apply line_ok_text. exact R.
Qed.
