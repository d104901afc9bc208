From Verif Require Import LayoutSpec FlowProof FlowProof2 GraphProof AssignProof TextProof.
From Coq Require Import List Permutation Lia.
Open Scope Q_scope.

(* ---------------- clipping invents nothing ---------------- *)
Lemma span_clip_incl r s g : span_bool (span_clip r s) = true -> In g (span_glyphs (span_clip r s)) -> In g (span_glyphs s).
Proof.
  destruct s as [t|k b]; cbn [span_clip].
  - intros _. unfold tspan_clip. destruct (rcontains r (ts_bbox t)); [auto|]. destruct (rintersects r (ts_bbox t)); cbn [negb]; [|intros []].
    cbn [span_glyphs ts_chars ts_attrs ts_style]. intros Hg. apply in_map_iff in Hg. destruct Hg as (c & <- & Hc). apply filter_In in Hc. apply in_map_iff. exists c. split; [reflexivity|apply Hc].
  - destruct (get_main_bbox b r FACTOR_MAJOR) as [m|]; [destruct (rect_bool m); [auto|]|]; intros X; discriminate X.
Qed.
Lemma line_add_all_spans ss : forall l, ln_spans (line_add_all l ss) = ln_spans l ++ filter span_bool ss.
Proof.
  induction ss as [|s ss IH]; intros l; cbn [filter]; [rewrite app_nil_r; reflexivity|].
  change (line_add_all l (s :: ss)) with (line_add_all (line_add l s) ss). rewrite IH. unfold line_add. destruct (span_bool s); [|reflexivity].
  cbn [ln_spans]. rewrite <- app_assoc. reflexivity.
Qed.
Lemma line_clip_incl r l g : In g (styled (ln_spans (line_clip r l))) -> In g (styled (ln_spans l)).
Proof.
  unfold line_clip. destruct (rcontains r (ln_bbox l)); [auto|]. rewrite line_add_all_spans. cbn [ln_spans app]. unfold styled. intros Hg.
  apply in_flat_map in Hg. destruct Hg as (s & Hs & Hg). apply filter_In in Hs. destruct Hs as [Hs B]. apply in_map_iff in Hs. destruct Hs as (s' & <- & Hs).
  apply in_flat_map. exists s'. split; [exact Hs|]. eapply span_clip_incl; [exact B|exact Hg].
Qed.

(* ---------------- distribution ---------------- *)
Section Text.
Variable PT : glyph * list style -> Prop.
Definition okl (ls : list line) : Prop := forall l g, In l ls -> In g (styled (ln_spans l)) -> PT g.
Lemma okl_iff ls : okl ls <-> forall g, In g (line_glyphs ls) -> PT g.
Proof.
  unfold line_glyphs. split.
  - intros H g Hg. apply in_flat_map in Hg. destruct Hg as (l & Hl & Hg). apply (H l g Hl Hg).
  - intros H l g Hl Hg. apply H. apply in_flat_map. exists l. auto.
Qed.
Lemma okl_incl a b : incl a b -> okl b -> okl a.
Proof. intros I H l g Hl. apply (H l g). apply I. exact Hl. Qed.
Lemma okl_filter f a : okl a -> okl (filter f a).
Proof. apply okl_incl. intros l Hl. apply filter_In in Hl. apply Hl. Qed.
Lemma split_lines_incl t ls : forall a b, split_lines t ls = Some (a, b) -> incl a ls /\ incl b ls.
Proof.
  induction ls as [|l ls IH]; intros a b E; cbn [split_lines] in E; [injection E as <- <-; split; intros x []|].
  destruct (qeq _ _); [discriminate|]. destruct (split_lines t ls) as [[a' b']|]; [|discriminate]. destruct (IH a' b' eq_refl) as [I1 I2].
  destruct (qle FACTOR_MOST _); injection E as <- <-; split; intros x Hx; try (destruct Hx as [<-|Hx]; [left; reflexivity|]); right; auto.
Qed.
Lemma ok_text_block ls : okl ls -> okl (blk_lines (text_block ls)).
Proof. intros H. destruct (text_block_lines ls) as (r & ->). cbn [blk_lines]. apply okl_filter. exact H. Qed.
Lemma assign_block_ok b tables : forall ls r k, okl (blk_lines b) -> okl ls -> assign_block b ls tables = Some (r, k) ->
  forall x, In x (concat r ++ k) -> okl (blk_lines x).
Proof.
  induction tables as [|t ts IH]; intros ls r k Hb Hl E x Hx; cbn [assign_block] in E.
  - injection E as <- <-. cbn [concat app] in Hx. destruct Hx as [<-|[]]. destruct b; [apply ok_text_block; exact Hl|exact Hb].
  - assert (Nn : forall X, concat (none_of ts : list (list X)) = []) by (intros X; unfold none_of; clear; induction ts; [reflexivity|exact IHts]).
    destruct (rcontains t (blk_bbox b)).
    { injection E as <- <-. cbn [concat] in Hx. rewrite Nn in Hx. cbn in Hx. destruct Hx as [<-|[]]. exact Hb. }
    assert (Sk : forall r k, match assign_block b ls ts with None => None | Some (r, k) => Some ([] :: r, k) end = Some (r, k) -> forall x, In x (concat r ++ k) -> okl (blk_lines x)).
    { intros r0 k0 E0 y Hy. destruct (assign_block b ls ts) as [[r1 k1]|] eqn:E1; [|discriminate]. injection E0 as <- <-. cbn [concat app] in Hy. eapply IH; eauto. }
    destruct (rintersects t (blk_bbox b)); cbn [negb] in E; [|eapply Sk; eauto].
    destruct b as [bb bl|id bb]; [|eapply Sk; eauto].
    destruct (split_lines t ls) as [[ins outs]|] eqn:Es; [|discriminate]. destruct (split_lines_incl _ _ _ _ Es) as [I1 I2].
    assert (Ti : okl (blk_lines (text_block ins))) by (apply ok_text_block; eapply okl_incl; eauto).
    destruct outs as [|o outs].
    + injection E as <- <-. cbn [concat] in Hx. rewrite Nn in Hx. cbn in Hx. destruct Hx as [<-|[]]. exact Ti.
    + destruct (assign_block (BText bb bl) (o :: outs) ts) as [[r1 k1]|] eqn:E1; [|discriminate]. injection E as <- <-.
      cbn [concat app] in Hx. destruct Hx as [<-|Hx]; [exact Ti|]. eapply (IH (o :: outs)); eauto. eapply okl_incl; eauto.
Qed.
Lemma zip_app_in {A} (a : list (list A)) : forall b x, In x (concat (zip_app a b)) -> In x (concat a) \/ In x (concat b).
Proof.
  induction a as [|u a IH]; intros [|v b] x Hx; cbn [zip_app concat] in Hx; try (destruct Hx; fail). cbn [concat].
  rewrite !in_app_iff in *. destruct Hx as [[Hx|Hx]|Hx]; auto. destruct (IH b x Hx); auto.
Qed.
Lemma assign_all_ok tables bs : forall r k, (forall b, In b bs -> okl (blk_lines b)) -> assign_all bs tables = Some (r, k) ->
  forall x, In x (concat r ++ k) -> okl (blk_lines x).
Proof.
  induction bs as [|b bs IH]; intros r k H E x Hx; cbn [assign_all] in E.
  - injection E as <- <-. rewrite app_nil_r in Hx. exfalso. unfold none_of in Hx. clear - Hx. induction tables; [destruct Hx|exact (IHtables Hx)].
  - destruct (assign_block b (blk_lines b) tables) as [[r1 k1]|] eqn:E1; [|discriminate]. destruct (assign_all bs tables) as [[r2 k2]|] eqn:E2; [|discriminate].
    injection E as <- <-. assert (Hb : okl (blk_lines b)) by (apply H; left; reflexivity).
    assert (X1 := assign_block_ok b tables _ _ _ Hb Hb E1). assert (X2 := IH _ _ (fun y Hy => H y (or_intror Hy)) eq_refl).
    rewrite !in_app_iff in Hx. destruct Hx as [Hx|[Hx|Hx]].
    + apply zip_app_in in Hx. destruct Hx as [Hx|Hx]; [apply X1|apply X2]; apply in_or_app; left; exact Hx.
    + apply X1; apply in_or_app; right; exact Hx.
    + apply X2; apply in_or_app; right; exact Hx.
Qed.
Lemma assign_cell_ok c b x : okl (blk_lines b) -> In x (assign_cell c b) -> okl (blk_lines x).
Proof.
  intros H Hx. unfold assign_cell in Hx. destruct (contains c (blk_bbox b) _).
  - destruct (blk_bool b); [destruct Hx as [<-|[]]; exact H|destruct Hx].
  - destruct (rect_bool (rinter c (blk_bbox b))); cbn [negb] in Hx; [|destruct Hx]. destruct b as [r ls|k r]; [|destruct Hx].
    cbv zeta in Hx. destruct (blk_bool _); [destruct Hx as [<-|[]]|destruct Hx]. apply ok_text_block. intros l g Hl Hg. apply in_map_iff in Hl. destruct Hl as (l' & <- & Hl).
    apply (H l' g Hl). eapply line_clip_incl. exact Hg.
Qed.
Lemma assign_to_tables_ok base bs ts cells rest : (forall b, In b bs -> okl (blk_lines b)) -> assign_to_tables base bs ts = Some (cells, rest) ->
  (forall t c x, In t cells -> In c t -> In x c -> okl (blk_lines x)) /\ (forall x, In x rest -> okl (blk_lines x)).
Proof.
  intros H E. destruct ts as [|t0 ts]; [cbn [assign_to_tables] in E; injection E as <- <-; split; [intros t c x []|exact H]|].
  unfold assign_to_tables in E. destruct (assign_all bs (map ta_bbox (t0 :: ts))) as [[r k]|] eqn:Ea; [|discriminate]. injection E as <- <-.
  pose proof (assign_all_ok _ bs _ _ H Ea) as A. split.
  - intros t c x Ht Hc Hx. apply in_map_iff in Ht. destruct Ht as ((u & l) & <- & Hp). cbn [fst snd] in Hc. assert (Hl := in_combine_r (t0 :: ts) r u l Hp).
    assert (Al : forall y, In y l -> okl (blk_lines y)) by (intros y Hy; apply A; apply in_or_app; left; apply in_concat; exists l; auto).
    destruct l as [|y l]; [apply in_map_iff in Hc; destruct Hc as (z & <- & _); destruct Hx|].
    unfold assign_cells in Hc. apply in_map_iff in Hc. destruct Hc as (cc & <- & Hcc). destruct (rect_bool cc); [|destruct Hx].
    apply in_flat_map in Hx. destruct Hx as (z & Hz & Hx). eapply assign_cell_ok; [apply Al; exact Hz|exact Hx].
  - intros x Hx. apply filter_In in Hx. destruct Hx as [Hx _]. apply in_app_or in Hx. destruct Hx as [Hx|Hx]; [apply A; apply in_or_app; right; exact Hx|].
    assert (N : forall l k, In x (number_tables k l) -> blk_lines x = []).
    { clear. induction l as [|t l IH]; intros k Hx; [destruct Hx|]. cbn [number_tables] in Hx. destruct Hx as [<-|Hx]; [reflexivity|eapply IH; exact Hx]. }
    rewrite (N (t0 :: ts) base Hx). intros l g [].
Qed.

(* ---------------- trees ---------------- *)
Variable PC : option bcell * lshapes -> Prop.
Fixpoint all_cells (b : lblock) : list (option bcell * lshapes) :=
  match b with LText _ => [] | LTable _ cs => flat_map (fun c : option bcell * lshapes * list lblock => fst c :: flat_map all_cells (snd c)) cs end.
Definition okb (b : lblock) : Prop := (forall g, In g (block_text b) -> PT g) /\ (forall c, In c (all_cells b) -> PC c).
Definition ok (bs : list lblock) : Prop := forall b, In b bs -> okb b.
Lemma okb_text t : okb (LText t) <-> okl (b_lines t).
Proof. rewrite okl_iff. unfold okb. cbn [block_text all_cells]. split; [intros H; apply H|intros H; split; [exact H|intros c []]]. Qed.
Lemma okb_table bb cs : okb (LTable bb cs) <-> forall c : lcell, In c cs -> PC (fst c) /\ ok (snd c).
Proof.
  unfold okb, ok, okb. cbn [block_text all_cells]. split.
  - intros [H1 H2] c Hc. split; [apply H2; apply in_flat_map; exists c; split; [exact Hc|left; reflexivity]|]. intros b Hb. split.
    + intros g Hg. apply H1. apply in_flat_map. exists c. split; [exact Hc|]. apply in_flat_map. exists b. auto.
    + intros x Hx. apply H2. apply in_flat_map. exists c. split; [exact Hc|]. right. apply in_flat_map. exists b. auto.
  - intros H. split.
    + intros g Hg. apply in_flat_map in Hg. destruct Hg as (c & Hc & Hg). apply in_flat_map in Hg. destruct Hg as (b & Hb & Hg). apply (proj2 (H c Hc) b Hb). exact Hg.
    + intros x Hx. apply in_flat_map in Hx. destruct Hx as (c & Hc & [<-|Hx]); [apply (H c Hc)|]. apply in_flat_map in Hx. destruct Hx as (b & Hb & Hx). apply (proj2 (H c Hc) b Hb). exact Hx.
Qed.
Definition okf (b : fblock) : Prop := okl (f_lines b).
Lemma flat_ok bs : forall k, ok bs -> forall b, In b (flat k bs) -> okf b.
Proof.
  induction bs as [|x bs IH]; intros k H b Hb; [destruct Hb|]. assert (H' : ok bs) by (intros y Hy; apply H; right; exact Hy).
  destruct x as [t|bb cs]; cbn [flat] in Hb; destruct Hb as [<-|Hb]; try (eapply IH; eauto; fail).
  - apply okb_text. apply H. left. reflexivity.
  - intros l g [].
Qed.
Lemma tabs_ok bs : ok bs -> ok (tabs bs).
Proof. intros H b Hb. apply filter_In in Hb. apply H. apply Hb. Qed.
Lemma ok_app a b : ok a -> ok b -> ok (a ++ b).
Proof. intros H1 H2 x Hx. apply in_app_or in Hx. destruct Hx; auto. Qed.
Lemma back_ok ts l : ok ts -> (forall b, In b l -> okf b) -> ok (flat_map (back ts) l).
Proof.
  intros Ht H x Hx. apply in_flat_map in Hx. destruct Hx as (b & Hb & Hx). destruct b as [t|k bb]; cbn [back] in Hx.
  - destruct Hx as [<-|[]]. apply okb_text. apply (H _ Hb).
  - destruct (nth_error ts k) as [y|] eqn:E; [|destruct Hx]. destruct Hx as [<-|[]]. apply Ht. eapply nth_error_In. exact E.
Qed.
Lemma sort_f_in l b : In b (sort_fblocks l) -> In b l.
Proof. intros H. eapply Permutation_in; [apply Permutation_sym; apply sort_fblocks_perm|exact H]. Qed.
Lemma resort_ok bs : ok bs -> ok (resort bs).
Proof. intros H. apply back_ok; [apply tabs_ok; exact H|]. intros b Hb. apply sort_f_in in Hb. eapply flat_ok; eauto. Qed.
Lemma of_block_ok x : okl (blk_lines x) -> okf (of_block x).
Proof. destruct x; intros H; [exact H|intros l g []]. Qed.
Lemma to_block_ok b : okf b -> okl (blk_lines (to_block b)).
Proof. destruct b; intros H; exact H. Qed.
Lemma set_pid_spans id l : ln_spans (set_pid id l) = ln_spans l.
Proof. unfold set_pid. destruct (ln_pid l); reflexivity. Qed.
Lemma set_pid_ok id ls : okl ls -> okl (map (set_pid id) ls).
Proof. intros H l g Hl Hg. apply in_map_iff in Hl. destruct Hl as (l' & <- & Hl). rewrite set_pid_spans in Hg. apply (H l' g Hl Hg). Qed.
Lemma tag_ok ids bs : forall k, (forall b, In b bs -> okf b) -> forall b, In b (tag ids k bs) -> okf b.
Proof.
  induction bs as [|x bs IH]; intros k H b Hb; [destruct Hb|]. assert (H' : forall b, In b bs -> okf b) by (intros y Hy; apply H; right; exact Hy).
  destruct x as [t|i bb]; cbn [tag] in Hb; destruct Hb as [<-|Hb]; try (eapply IH; eauto; fail).
  - apply set_pid_ok. apply (H (FText t)). left. reflexivity.
  - intros l g [].
Qed.
Variable Pn : forall i, PC (i, no_shapes).
Lemma hd_in {A} (l : list (list A)) x : In x (hd [] l) -> exists c, In c l /\ In x c.
Proof. destruct l as [|c l]; [intros []|]. intros H. exists c. split; [left; reflexivity|exact H]. Qed.
Lemma tl_in {A} (l : list A) x : In x (tl l) -> In x l.
Proof. destruct l; [intros []|]. intros H. right. exact H. Qed.
Lemma fill_cells_ok ids old cells : ok old -> forall k contents, (forall c x, In c contents -> In x c -> okl (blk_lines x)) ->
  forall c, In c (fst (fill_cells ids k old cells contents)) -> PC (fst c) /\ ok (snd c).
Proof.
  intros Ho. induction cells as [|i cells IH]; intros k contents H c Hc; [destruct Hc|]. cbn [fill_cells] in Hc.
  destruct (fill_cells ids (k + List.length (hd [] contents)) old cells (tl contents)) as [r k'] eqn:E. cbn [fst] in Hc. destruct Hc as [<-|Hc].
  - cbn [fst snd]. split; [apply Pn|]. apply back_ok; [exact Ho|]. apply tag_ok. intros b Hb. apply in_map_iff in Hb. destruct Hb as (x & <- & Hx).
    apply of_block_ok. destruct (hd_in _ _ Hx) as (cc & Hcc & Hx'). eapply H; eauto.
  - specialize (IH (k + List.length (hd [] contents))%nat (tl contents)). rewrite E in IH. apply IH; [|exact Hc]. intros c0 x Hc0. apply H. apply tl_in. exact Hc0.
Qed.
Lemma fill_tables_ok ids old ts : ok old -> forall k contents, (forall t c x, In t contents -> In c t -> In x c -> okl (blk_lines x)) ->
  ok (fst (fill_tables ids k old ts contents)).
Proof.
  intros Ho. induction ts as [|t ts IH]; intros k contents H b Hb; [destruct Hb|]. cbn [fill_tables] in Hb.
  destruct (fill_cells ids k old (snd t) (hd [] contents)) as [cs k1] eqn:E. destruct (fill_tables ids k1 old ts (tl contents)) as [l k2] eqn:E2. cbn [fst] in Hb. destruct Hb as [<-|Hb].
  - apply okb_table. intros c Hc. pose proof (fill_cells_ok ids old (snd t) Ho k (hd [] contents)) as F. rewrite E in F. apply F; [|exact Hc].
    intros c0 x Hc0 Hx. destruct (hd_in _ _ Hc0) as (tt & Htt & Hc1). eapply H; eauto.
  - specialize (IH k1 (tl contents)). rewrite E2 in IH. apply IH; [|exact Hb]. intros t0 c x Ht0. apply H. apply tl_in. exact Ht0.
Qed.
(** Shapes handed to a cell: those of [l] that the filter lets through. *)
Lemma cell_shapes_ok w l c : (forall l', incl l' l -> (forall k, In k l' -> rect_bool (rinter (info_box (lc_info c)) (sh_bbox (shape_at w k))) = true) ->
    forall a b u v, incl u l' -> incl v l' -> PC (lc_info c, mkLS l' a b u v)) -> PC (fst c) /\ ok (snd c) -> PC (fst (cell_shapes w l c)) /\ ok (snd (cell_shapes w l c)).
Proof.
  intros HP [H1 H2]. unfold cell_shapes. destruct (rect_bool (info_box (lc_info c))); [|auto]. cbv zeta. cbn [fst snd]. split.
  - unfold categorise. apply HP.
    + intros k Hk. apply filter_In in Hk. apply Hk.
    + intros k Hk. apply filter_In in Hk. destruct Hk as [_ Hk]. apply andb_true_iff in Hk. apply Hk.
    + intros k Hk. apply filter_In in Hk. apply Hk.
    + intros k Hk. apply filter_In in Hk. apply Hk.
  - apply resort_ok. exact H2.
Qed.
Lemma table_shapes_ok w boxes l j b :
  (forall i l', incl l' l -> (forall k, In k l' -> rect_bool (rinter (info_box i) (sh_bbox (shape_at w k))) = true) -> forall x y u v, incl u l' -> incl v l' -> PC (i, mkLS l' x y u v)) ->
  okb b -> okb (table_shapes w boxes l j b).
Proof.
  intros HP H. unfold table_shapes. destruct (filter _ l) as [|m mine] eqn:E; [exact H|]. rewrite <- E. destruct b as [t|bb cs]; [exact H|].
  rewrite okb_table in H. apply okb_table. intros c Hc. apply in_map_iff in Hc. destruct Hc as (c0 & <- & Hc). apply cell_shapes_ok; [|apply H; exact Hc].
  intros l' I T a b u v Hu Hv. apply HP; [|exact T|exact Hu|exact Hv]. intros k Hk. specialize (I k Hk). apply filter_In in I. apply I.
Qed.
Lemma place_tables_ok ids w bs ss ts w' bs' ss' :
  (forall i l', incl l' (ls_all ss) -> (forall k, In k l' -> rect_bool (rinter (info_box i) (sh_bbox (shape_at w k))) = true) -> forall x y u v, incl u l' -> incl v l' -> PC (i, mkLS l' x y u v)) ->
  ok bs -> place_tables ids w bs ss ts = Ok (w', bs', ss') -> ok bs' /\ incl (ls_all ss') (ls_all ss) /\ ls_lines ss' = ls_lines ss /\ ls_marks ss' = ls_marks ss /\ w_shapes w' = w_shapes w.
Proof.
  intros HP H E. unfold place_tables in E. destruct ts as [|t0 ts]; [injection E as <- <- <-; split; [exact H|split; [apply incl_refl|auto]]|].
  cbv zeta in E. destruct (assign_to_tables _ _ _) as [[contents rest]|] eqn:Ea; [|discriminate].
  destruct (assign_to_tables_ok _ _ _ _ _ (fun b Hb => match proj1 (in_map_iff _ _ _) Hb with ex_intro _ x (conj Ex Hx) => eq_ind _ (fun y => okl (blk_lines y)) (to_block_ok x (flat_ok bs 0 H x Hx)) _ Ex end) Ea) as [A1 A2].
  destruct (fill_tables ids (w_next w) (tabs bs) (t0 :: ts) contents) as [new k] eqn:Ef. injection E as <- <- <-. split; [|split; [|auto]].
  - apply back_ok.
    + apply ok_app; [apply tabs_ok; exact H|]. intros b Hb. apply in_map_iff in Hb. destruct Hb as ((j & b0) & <- & Hb). apply in_combine_r in Hb. cbn [fst snd].
      apply table_shapes_ok; [exact HP|]. pose proof (fill_tables_ok ids (tabs bs) (t0 :: ts) (tabs_ok bs H) (w_next w) contents A1) as F. rewrite Ef in F. apply F. exact Hb.
    + intros b Hb. apply sort_f_in in Hb. apply in_map_iff in Hb. destruct Hb as (x & <- & Hx). apply of_block_ok. apply A2. exact Hx.
  - intros k0 Hk. cbn [ls_all] in Hk. assert (Hk' : In k0 (filter (fun i => match shape_target (new_boxes (t0 :: ts)) (shape_at w i) with None => true | Some _ => false end) (ls_all ss))).
    { eapply Permutation_in; [apply Permutation_sym; apply py_sort_perm|exact Hk]. }
    apply filter_In in Hk'. apply Hk'.
Qed.
End Text.
