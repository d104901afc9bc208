(** All blocks, and the characters with their formats. *)
From Verif Require Import GeomProof ShapeModel TextModel TextSpec TextProof FmtSpec LayoutFormat FmtProof FmtProof2 FmtProof3 FmtProof4.
From Verif Require Import CleanModel CleanSpec FlowModel FlowSpec LayoutModel WholeModel WholeSpec WholeProof FmtSpec.
From Coq Require Import List Lia Lqa Permutation Sorting.Sorted.
Import ListNotations.
Notation length := List.length.
Open Scope Q_scope.

Lemma Forall2_app_ {A B} (R : A -> B -> Prop) a b c d : Forall2 R a b -> Forall2 R c d -> Forall2 R (a ++ c) (b ++ d).
Proof. induction 1; intros F; [exact F|constructor; auto]. Qed.
Lemma parts_glyphs kind ms t ps : parts_ok kind ms [] t ps -> Forall2 (formatted kind ms) (span_glyphs (SText t)) (styled (map SText ps)).
Proof.
  intros (E & F). cbn [span_glyphs]. rewrite <- E. clear E. induction F as [|p ps (_ & _ & At & _ & St & _) F IH]; [constructor|]. cbn [map concat]. rewrite map_app.
  change (styled (SText p :: map SText ps)) with (span_glyphs (SText p) ++ styled (map SText ps)). apply Forall2_app_; [|exact IH]. cbn [span_glyphs]. rewrite At. clear - St.
  assert (G : forall cs, (forall c, In c cs -> In c (ts_chars p)) -> Forall2 (formatted kind ms) (map (fun c => (GChar c (ts_attrs t), ts_style t)) cs) (map (fun c => (GChar c (ts_attrs t), ts_style p)) cs)).
  { induction cs as [|c cs IH]; intros H; cbn [map]; constructor; [|apply IH; intros x Hx; apply H; right; exact Hx]. split; [reflexivity|]. cbn [fst snd]. destruct (St c (H c (or_introl eq_refl))) as (fs & Fo & Es). exists fs. split; [exact Fo|exact Es]. }
  apply G. auto.
Qed.
Lemma line_glyphs_at kind ms l0 l : line_at kind ms [] l0 l -> Forall2 (formatted kind ms) (styled (ln_spans l0)) (styled (ln_spans l)).
Proof.
  intros (_ & _ & _ & _ & xss & F & ->). induction F as [|x xs l1 xss P F IH]; [constructor|]. cbn [concat]. rewrite styled_app. change (styled (x :: l1)) with (span_glyphs x ++ styled l1). apply Forall2_app_; [|exact IH].
  destruct x as [t|k b]; [destruct P as (ps & -> & Ok); apply parts_glyphs, Ok|]. cbn [piece] in P. subst xs. constructor; [|constructor]. split; reflexivity.
Qed.
Lemma lines_glyphs_at kind ms ls0 ls : Forall2 (line_at kind ms []) ls0 ls -> Forall2 (formatted kind ms) (line_glyphs ls0) (line_glyphs ls).
Proof. induction 1 as [|x y l1 l2 A F IH]; [constructor|]. cbn [line_glyphs flat_map]. apply Forall2_app_; [apply line_glyphs_at, A|exact IH]. Qed.

(** The blocks one after the other. *)
Definition good_block (kind : shape -> rtype) (ms : list shape) (b : tblock) : Prop :=
  proper (b_bbox b) /\ StronglySorted beneath (b_lines b) /\ (forall l, In l (b_lines b) -> set_line_ l /\ covers (b_bbox b) (ln_bbox l)) /\
  forall t, In t (block_texts (b_lines b)) -> clearly_marked kind ms t.
Lemma blocks_marked kind W ks : NoDup ks -> (forall k, In k ks -> proper (sh_bbox (shape0 W k)) /\ rect_decimal (sh_bbox (shape0 W k))) ->
  forall bs w w' out, Forall (good_block kind (map (shape0 W) ks)) bs -> ForallOrdPairs (alone (map (shape0 W) ks)) bs -> Forall2 still W (w_shapes w) ->
  (forall k b t, In k ks -> In b bs -> In t (block_texts (b_lines b)) -> over (sh_bbox (shape0 W k)) (ts_bbox t) -> shape_at w k = shape0 W k) ->
  format_blocks w ks (map LText bs) = (w', out) ->
  w_next w' = w_next w /\ exists bs', out = map LText bs' /\ Forall2 (fun b b' => b_bbox b' = b_bbox b /\ b_img b' = b_img b /\ Forall2 (line_at kind (map (shape0 W) ks) []) (b_lines b) (b_lines b')) bs bs'.
Proof.
  intros Nd Pk. induction bs as [|b bs IH]; intros w w' out G Al Sw Lv E; cbn [map format_blocks] in E; [injection E as <- <-; split; [reflexivity|]; exists []; split; [reflexivity|constructor]|].
  inversion G as [|? ? (Pb & So & SL & M) G']; subst. inversion Al as [|? ? Al1 Al2]; subst.
  destruct (format_lines w (b_bbox b) (b_lines b) ks) as [w1 ls] eqn:El. destruct (format_blocks w1 ks (map LText bs)) as [w2 r2] eqn:Er. injection E as <- <-.
  destruct (format_lines_marked kind W (b_bbox b) (b_lines b)) with (ks := ks) (done := @nil shape) (w := w) (ls := b_lines b) (w' := w1) (ls' := ls) as (L1 & L2 & L3 & L4); try assumption.
  - intros l Hl. apply (SL l Hl).
  - intros l Hl. apply (SL l Hl).
  - assert (X : forall l, In l (b_lines b) -> line_at kind [] (map (shape0 W) ks) l l).
    { intros l Hl. apply line_start; [apply (SL l Hl)|]. intros t Ht. apply M, in_block_texts. exists l. split; assumption. }
    revert X. generalize (b_lines b). induction l as [|x l IHl]; intros X; constructor; [apply X; left; reflexivity|apply IHl; intros y Hy; apply X; right; exact Hy].
  - intros k t Hk Ht O. apply (Lv k b t Hk (or_introl eq_refl) Ht O).
  - destruct (IH w1 w2 r2 G' Al2 L2) as (N & bs' & -> & F); [|exact Er|].
    + intros k c t Hk Hc Ht O. assert (Old : shape_at w k = shape0 W k) by (apply (Lv k c t Hk (or_intror Hc) Ht O)).
      destruct (rtype_eqb (sh_type (shape0 W k)) R_HYPERLINK) eqn:T.
      * assert (T' : sh_type (shape0 W k) = R_HYPERLINK) by (destruct (sh_type (shape0 W k)); try discriminate T; reflexivity). destruct (still_nth W (w_shapes w1) k L2) as [_ X]. apply X, T'.
      * rewrite L4; [exact Old|]. intros _ u Hu. destruct (proj1 (M u Hu) (shape0 W k) (in_map (shape0 W) ks k Hk)) as [C|(O' & _)]; [exact C|]. exfalso. rewrite Forall_forall in Al1.
        apply (Al1 c Hc (shape0 W k) u t (in_map (shape0 W) ks k Hk)); [intros X; rewrite X in T; discriminate T|exact Hu|exact Ht|exact O'|exact O].
    + split; [congruence|]. exists (mkBlk (b_img b) (b_bbox b) ls :: bs'). split; [reflexivity|]. constructor; [|exact F]. cbn [b_bbox b_img b_lines]. split; [reflexivity|]. split; [reflexivity|]. exact L1.
Qed.
