(** A page of paragraphs with formats. *)
From Verif Require GeomProof TextProof TableSpec ShapeProof ShapeProps.
From Verif Require Import AssignSpec AssignProof PySort FlowModel FlowSpec LayoutSpec LayoutProps TreeSpec TreeProof TreeProof3 TreeProof5 TreeProps.
From Verif Require Import CleanSpec CleanProof2 CleanProps.
From Verif Require Import CleanModel CleanSpec FlowModel FlowSpec LayoutModel WholeModel WholeSpec.
From Verif Require Import WholeProof WholeProof2 WholeProof3 WholeProof4 WholeProof5 WholeProof6 WholeProof7 PlaceProof3.
From Verif Require DocxModel PageModel ShapeModel.
From Verif Require Import ShapeModel ShapeSpec FmtSpec LayoutFormat FmtProof FmtProof2 FmtProof3 FmtProof4 FmtProof5 FmtProof6 CleanModel CleanSpec WholeModel WholeSpec FmtSpec.
From Coq Require Import Lia Lqa Permutation Sorting.Sorted.
Notation length := List.length.
Notation hull := WholeProof2.hull.
Open Scope Q_scope.

Lemma pick_seq (P : shape -> bool) W : forall pre, map (shape0 (pre ++ W)) (filter (fun k => P (shape0 (pre ++ W) k)) (seq (length pre) (length W))) = filter P W.
Proof.
  induction W as [|s W IH]; intros pre; [reflexivity|]. cbn [length seq filter].
  assert (E : shape0 (pre ++ s :: W) (length pre) = s) by (unfold shape0; rewrite app_nth2 by lia; rewrite Nat.sub_diag; reflexivity). rewrite E.
  specialize (IH (pre ++ [s])). rewrite <- app_assoc in IH. cbn [app] in IH. rewrite app_length in IH. cbn [length] in IH. rewrite Nat.add_1_r in IH.
  destruct (P s); cbn [map]; rewrite IH; [rewrite E|]; reflexivity.
Qed.
Lemma pick (P : shape -> bool) W : map (shape0 W) (filter (fun k => P (shape0 W k)) (seq 0 (length W))) = filter P W.
Proof. exact (pick_seq P W []). Qed.
Lemma group_of bs s : shape_bool s = true ->
  in_group g_table_strokes bs s = ShapeProof.is_table_stroke (shape_blocks bs) s /\ in_group g_table_fillings bs s = ShapeProof.is_table_filling (shape_blocks bs) s /\
  in_group g_underlines bs s = ShapeProof.is_underline (shape_blocks bs) s /\ in_group g_highlights bs s = ShapeProof.is_highlight (shape_blocks bs) s.
Proof.
  intros B. unfold in_group. pose proof (ShapeProof.classify_filter (shape_blocks bs) [s] (mkGroups [] [] [] [])) as E. cbn [fold_left] in E. rewrite E. cbv zeta. cbn [g_table_strokes g_table_fillings g_underlines g_highlights app filter]. rewrite B. cbn [andb].
  repeat split; match goal with |- context [if ?c then _ else _] => destruct c; reflexivity end.
Qed.
Lemma NoDup_app_ {A} (a b : list A) : NoDup a -> NoDup b -> (forall x, In x a -> ~ In x b) -> NoDup (a ++ b).
Proof.
  induction 1 as [|x a N Na IH]; intros Nb D; [exact Nb|]. cbn [app]. constructor; [|apply IH; [exact Nb|intros y Hy; apply D; right; exact Hy]].
  intros H. apply in_app_or in H. destruct H as [H|H]; [contradiction|apply (D x (or_introl eq_refl) H)].
Qed.
(** The groups of a page with formats only. *)
Lemma page_groups kind out ts sh fl : (forall b l, In b out -> In l (b_lines b) -> flat_line l) ->
  (forall b, In b out -> box (b_bbox b) /\ b_lines b <> [] /\ exists m, b_bbox b = hull m /\ forall l, In l m <-> In l (b_lines b)) ->
  let c := mkClean fl (sort_blocks out) sh in formats_only kind c ts ->
  let w n := LayoutModel.mkW sh n in
  ls_strokes (page_shapes c) = [] /\ ls_fills (page_shapes c) = [] /\ (forall k, In k (ls_all (page_shapes c)) -> box (sh_bbox (shape_at (w 0%nat) k))) /\
  forall n, let ks := style_shapes (w n) (page_shapes c) in NoDup ks /\ map (shape0 sh) ks = in_turn sh /\ forall k, In k ks -> In (shape0 sh k) sh.
Proof.
  intros Fo Bo c (Bx & Ins & Beh & _ & _) w. cbn [c_shapes c] in Bx, Ins, Beh.
  assert (Bl : forall s, In s sh -> shape_bool s = true) by (intros s Hs; apply GeomProof.proper_truthy, (Bx s Hs)).
  assert (Nth : forall k, In k (seq 0 (length sh)) -> In (shape0 sh k) sh) by (intros k Hk; apply in_seq in Hk; apply nth_In; lia).
  set (bs := map LText (sort_blocks out)). assert (Eb : shape_blocks bs = text_boxes c) by (unfold bs; rewrite shape_blocks_map; reflexivity).
  assert (So : sort_key ShapeProof.block_key (text_boxes c) = text_boxes c) by (apply (blocks_in_order out Fo)).
  assert (TL : text_layout (text_boxes c)).
  { intros b Hb. apply in_map_iff in Hb. destruct Hb as (x & <- & Hx). cbn [tb_bbox tb_lines]. cbn [c_blocks c] in Hx. assert (Hx' : In x out) by (eapply Permutation_in; [apply Permutation_sym, sort_blocks_perm|exact Hx]).
    destruct (Bo x Hx') as ((Px & _) & Ne & m & Em & Hm). split; [exact Px|]. intros r Hr. apply in_map_iff in Hr. destruct Hr as (l & <- & Hl). destruct (Fo x l Hx' Hl) as ((Pl & Dl & _) & _). split; [exact Pl|].
    destruct (hull_sides m) as (_ & (_ & L) & (_ & R) & (_ & U) & (_ & D)); [intros ->; apply (Hm l) in Hl; destruct Hl|intros y Hy; apply Hm in Hy; destruct (Fo x y Hx' Hy) as ((Py & Dy & _) & _); split; assumption|].
    rewrite Em. apply Hm in Hl. split; [apply L, Hl|]. split; [apply U, Hl|]. split; [apply R, Hl|apply D, Hl]. }
  assert (G : forall s, In s sh -> in_group g_table_strokes bs s = false /\ in_group g_table_fillings bs s = false /\ in_group g_underlines bs s = kind_eqb (sh_kind s) KStroke /\ in_group g_highlights bs s = kind_eqb (sh_kind s) KFill).
  { intros s Hs. destruct (group_of bs s (Bl s Hs)) as (-> & -> & -> & ->). rewrite Eb. unfold ShapeProof.is_table_stroke, ShapeProof.is_table_filling, ShapeProof.is_underline, ShapeProof.is_highlight.
    destruct (Bx s Hs) as (Ps & _). destruct (sh_kind s) eqn:K; cbn [kind_eqb andb].
    - destruct (ShapeProof.semantic_stroke s (text_boxes c) TL (proper_valid _ Ps) K) as [[E _]|[_ N]]; [|destruct (N (Ins s Hs K))]. rewrite So in E. rewrite E. cbn. auto.
    - destruct (ShapeProof.semantic_fill s (text_boxes c) TL Ps K) as [[_ N]|[E _]]; [destruct (Beh s Hs K N)|]. rewrite So in E. rewrite E. cbn. auto.
    - auto. }
  unfold page_shapes, categorise. cbn [ls_strokes ls_fills ls_all ls_lines ls_marks c_shapes c_blocks c]. fold bs.
  assert (Fx : forall (f g : shape -> bool), (forall s, In s sh -> f s = g s) -> filter (fun k => f (shape0 sh k)) (seq 0 (length sh)) = filter (fun k => g (shape0 sh k)) (seq 0 (length sh))) by (intros f g H; apply filter_ext_in; intros k Hk; apply H, Nth, Hk).
  assert (None_ : forall l : list nat, filter (fun _ => false) l = []) by (induction l as [|x l IH]; [reflexivity|exact IH]).
  split; [|split; [|split]].
  - exact (eq_trans (Fx (in_group g_table_strokes bs) (fun _ => false) (fun s Hs => proj1 (G s Hs))) (None_ _)).
  - exact (eq_trans (Fx (in_group g_table_fillings bs) (fun _ => false) (fun s Hs => proj1 (proj2 (G s Hs)))) (None_ _)).
  - intros k Hk. destruct (Bx (shape0 sh k) (Nth k Hk)) as (A & B). split; assumption.
  - intros n. cbv zeta. unfold style_shapes. cbn [ls_lines ls_marks ls_all].
    pose proof (Fx (in_group g_underlines bs) (fun s => kind_eqb (sh_kind s) KStroke) (fun s Hs => proj1 (proj2 (proj2 (G s Hs))))) as X1.
    pose proof (Fx (in_group g_highlights bs) (fun s => kind_eqb (sh_kind s) KFill) (fun s Hs => proj2 (proj2 (proj2 (G s Hs))))) as X2.
    unfold shape_at. cbn [w_shapes w]. unfold shape0 in X1, X2.
    match type of X1 with ?l = _ => match goal with |- context [?a ++ ?b ++ ?d] => replace a with l by reflexivity end end.
    match type of X2 with ?l = _ => match goal with |- context [?a ++ ?b ++ ?d] => replace b with l by reflexivity end end. rewrite X1, X2. clear X1 X2.
    set (sq := seq 0 (length sh)) in *.
    assert (Nd : NoDup sq) by apply seq_NoDup.
    split; [|split].
    + apply NoDup_app_; [apply NoDup_filter, Nd| |].
      * apply NoDup_app_; [apply NoDup_filter, Nd|apply NoDup_filter, Nd|]. intros x Hx Hy. apply filter_In in Hx, Hy. destruct Hx as (_ & Hx), Hy as (_ & Hy). destruct (sh_kind (nth x sh empty_stroke)); discriminate.
      * intros x Hx Hy. apply filter_In in Hx. destruct Hx as (_ & Hx). apply in_app_or in Hy. destruct Hy as [Hy|Hy]; apply filter_In in Hy; destruct Hy as (_ & Hy); destruct (sh_kind (nth x sh empty_stroke)); discriminate.
    + unfold in_turn. rewrite !map_app. f_equal; [|f_equal]; [exact (pick (fun s => kind_eqb (sh_kind s) KStroke) sh)|exact (pick (fun s => kind_eqb (sh_kind s) KFill) sh)|exact (pick (fun s => kind_eqb (sh_kind s) KLink) sh)].
    + intros k Hk. apply Nth. apply in_app_or in Hk. destruct Hk as [Hk|Hk]; [apply filter_In in Hk; apply Hk|]. apply in_app_or in Hk. destruct Hk as [Hk|Hk]; apply filter_In in Hk; apply Hk.
Qed.
Lemma in_turn_in l s : In s (in_turn l) -> In s l.
Proof. unfold in_turn. intros H. apply in_app_or in H. destruct H as [H|H]; [apply filter_In in H; apply H|]. apply in_app_or in H. destruct H as [H|H]; apply filter_In in H; apply H. Qed.

Lemma page_marked order rorder ids pm fuel kind r ts : (forall l, Permutation l (order l)) -> 1 # 1000000 < p_line_overlap pm -> 0 < p_float_layout pm ->
  paragraph_page (without_drawings r) ts ->
  (forall c, clean_page order pm r = Some c -> one_column (PageModel.working_bbox (r_width r) (r_height r) (page_margin pm r c)) ts /\ formats_only kind c ts) ->
  exists c ss bs', clean_page order pm r = Some c /\ parse_page order rorder ids pm (S fuel) r = Ok (mkSPage (page_section r (page_margin pm r c)) ss []) /\
    Forall2 spaced bs' ss /\ Forall2 (fun t b' => Forall2 (line_at kind (in_turn (c_shapes c)) []) (b_lines t) (b_lines b')) ts bs'.
Proof.
  intros Ho T Tf Pp Oc. destruct (clean_paragraphs order (p_image_gap pm) (p_line_overlap pm) (p_line_merging pm) (without_drawings r) ts Ho T Pp) as (out & Cu & Pl & Bo & Nb).
  pose proof Pp as (_ & _ & _ & _ & Pa & Ot & Td). apply top_down_lines in Td. cbn [without_drawings r_blocks] in Cu. change (page_box (without_drawings r)) with (page_box r) in Cu.
  set (sh := name_shapes 1 (ShapeModel.clean_up (page_box r) (p_border_width pm) (p_shape_merging pm) (p_shape_min pm) (r_shapes r))) in *.
  assert (Cl : clean_page order pm r = Some (mkClean [] (sort_blocks out) sh)) by (unfold clean_page; rewrite Cu; reflexivity).
  unfold parse_page. rewrite Cl. cbn [c_blocks c_floats c_shapes].
  destruct (Oc _ Cl) as (Oc1 & Fm). clear Oc. set (c := mkClean [] (sort_blocks out) sh) in *. set (area := PageModel.working_bbox (r_width r) (r_height r) (page_margin pm r c)) in *.
  pose proof (sort_blocks_perm out) as Ps. pose proof Pa as Pa'. rewrite Forall_forall in Pa'.
  assert (FL : forall l, In l (lines_in ts) -> flat_line l).
  { intros l Hl. apply in_flat_map in Hl. destruct Hl as (t & Ht & Hl). destruct (Pa' t Ht) as (_ & _ & _ & _ & H). exact (H l Hl). }
  assert (Fo : forall b l, In b out -> In l (b_lines b) -> flat_line l) by (intros b l Hb Hl; apply FL; eapply Permutation_in; [exact Pl|]; apply in_flat_map; exists b; split; assumption).
  destruct (page_groups kind out ts sh [] Fo) as (Gs & Gf & Ga & Gk); [intros b Hb; destruct (Bo b Hb) as (_ & B1 & B2 & _ & B4); auto|exact Fm|]. fold c in Gs, Gf, Ga, Gk.
  destruct (Gk (length ts)) as (Nk & Ek & Ik). cbv zeta in *. clear Gk. set (ks := style_shapes (LayoutModel.mkW sh (length ts)) (page_shapes c)) in *.
  pose proof Fm as (Bx & _ & _ & Mk & Al).
  assert (Bp : forall t, In t ts -> box (b_bbox (para_block t)) /\ forall l, In l (b_lines t) -> covers (b_bbox (para_block t)) (ln_bbox l)).
  { intros t Ht. destruct (Pa' t Ht) as (_ & _ & Ne & _ & H). cbn [para_block b_bbox]. destruct (hull_sides (b_lines t) Ne) as (Hb & (_ & L) & (_ & R) & (_ & U) & (_ & D)); [intros l Hl; destruct (H l Hl) as ((A & B & _) & _); split; assumption|].
    split; [exact Hb|]. intros l Hl. split; [apply L, Hl|]. split; [apply U, Hl|]. split; [apply R, Hl|apply D, Hl]. }
  destruct (format_blocks (LayoutModel.mkW sh (length ts)) ks (map LText (map para_block ts))) as [w' outb] eqn:Ef.
  destruct (blocks_marked kind sh ks Nk) with (bs := map para_block ts) (w := LayoutModel.mkW sh (length ts)) (w' := w') (out := outb) as (Nx & bs' & -> & F').
  - intros k Hk. apply Bx, Ik, Hk.
  - rewrite Ek. apply Forall_forall. intros b Hb. apply in_map_iff in Hb. destruct Hb as (t & <- & Ht). destruct (Bp t Ht) as ((Pb & _) & Cb). destruct (Pa' t Ht) as (_ & (_ & _ & Ns) & _ & _ & H).
    split; [exact Pb|]. cbn [para_block b_lines] in *. split; [|split].
    + clear - Td Ht. apply in_split in Ht. destruct Ht as (a & b & ->). unfold lines_in in Td. rewrite flat_map_app in Td. cbn [flat_map] in Td.
      assert (G : forall (l r : list line), StronglySorted beneath (l ++ r) -> StronglySorted beneath l /\ StronglySorted beneath r).
      { clear. induction l as [|x l IH]; intros r S; [split; [constructor|exact S]|]. cbn [app] in S. inversion S as [|? ? S1 S2]; subst. destruct (IH r S1) as [A B]. split; [constructor; [exact A|]|exact B]. rewrite Forall_forall in *. intros y Hy. apply S2, in_or_app. left. exact Hy. }
      apply G in Td. destruct Td as [_ Td]. apply G in Td. apply Td.
    + intros l Hl. split; [|apply Cb, Hl]. destruct (H l Hl) as (Hn & Hd). split; [exact Hn|]. split; [exact Hd|]. split; [intros s Hs; apply (Ns l Hl), Hs|]. intros u Hu. apply (Mk t u Ht). apply in_flat_map. exists l. split; assumption.
    + intros u Hu. apply (Mk t u Ht Hu).
  - rewrite Ek. clear - Al. cbn [c_shapes c] in Al. induction Al as [|t ts F Al IH]; cbn [map]; constructor; [|exact IH]. apply Forall_forall. intros b Hb. apply in_map_iff in Hb. destruct Hb as (u & <- & Hu). rewrite Forall_forall in F. exact (F u Hu).
  - cbn [w_shapes]. clear. induction sh; constructor; [apply still_refl|assumption].
  - intros. reflexivity.
  - exact Ef.
  - rewrite (parse_marked order rorder ids (layout_settings pm) fuel area (sort_blocks out) ts sh (page_shapes c) w' bs' Ho Tf Pa Ot Td); [| | | |exact Oc1|exact Gs|exact Gf|exact Ga|exact Ef].
    + cbn [bind snd].
      destruct (space_texts order pm area bs' Ho) as (ss & Es & F).
      { intros u Hu. rewrite Ek in F'. clear - F' Hu Bp Pa'. clearbody sh. revert ts Bp Pa' F'. induction bs' as [|b bs' IH]; intros ts Bp Pa' F'; [destruct Hu|]. destruct ts as [|t ts]; [inversion F'|]. cbn [map] in F'. inversion F' as [|? ? ? ? (E1 & _ & FL) F'']; subst. destruct Hu as [<-|Hu].
        - split; [rewrite E1; apply (Bp t (or_introl eq_refl))|]. intros E. rewrite E in FL. cbn [para_block b_lines] in FL. destruct (Pa' t (or_introl eq_refl)) as (_ & _ & Ne & _). inversion FL; congruence.
        - apply (IH Hu ts); [intros x Hx; apply Bp; right; exact Hx|intros x Hx; apply Pa'; right; exact Hx|exact F'']. }
      rewrite Es. exists c, ss, bs'. split; [reflexivity|]. split; [reflexivity|]. split; [exact F|]. rewrite Ek in F'. cbn [c_shapes c].
      clear - F'. clearbody sh. revert bs' F'. induction ts as [|t ts IH]; intros bs' F'; cbn [map] in F'; inversion F' as [|? ? ? ? (_ & _ & X) F'']; subst; constructor; [exact X|apply IH, F''].
    + eapply Permutation_trans; [|exact Pl]. unfold lines_in. apply Permutation_flat_map. apply Permutation_sym, Ps.
    + intros b Hb. destruct (Bo b) as (_ & B1 & B2 & B3 & _); [eapply Permutation_in; [apply Permutation_sym, Ps|exact Hb]|]. split; [exact B1|split; [exact B2|exact B3]].
    + intros i (a & b & Ha & Hb & IL). rewrite nth_error_map in Ha, Hb. destruct (nth_error (sort_blocks out) i) as [x|] eqn:Ex; [|discriminate Ha]. destruct (nth_error (sort_blocks out) (S i)) as [y|] eqn:Ey; [|discriminate Hb]. injection Ha as <-. injection Hb as <-.
      assert (Sp : exists rest, Permutation (sort_blocks out) (x :: y :: rest)).
      { clear - Ex Ey. revert i Ex Ey. induction (sort_blocks out) as [|z l IH]; intros i Ex Ey; [destruct i; discriminate|]. destruct i as [|i].
        - injection Ex as ->. destruct l as [|w l]; [discriminate Ey|]. injection Ey as ->. exists l. apply Permutation_refl.
        - destruct (IH i Ex Ey) as (rest & P). exists (z :: rest). eapply Permutation_trans; [apply perm_skip, P|]. eapply Permutation_trans; [apply perm_swap|]. apply perm_skip, perm_swap. }
      destruct Sp as (rest & Sp). apply (Nb x y rest); [eapply Permutation_trans; [exact Ps|exact Sp]|].
      assert (Hx : In x out) by (eapply Permutation_in; [apply Permutation_sym, Ps|]; eapply nth_error_In, Ex). assert (Hy : In y out) by (eapply Permutation_in; [apply Permutation_sym, Ps|]; eapply nth_error_In, Ey).
      destruct IL as [I1 I2]. cbn [f_elem f_box e_dir b_elem] in I1, I2. rewrite (flat_dir x) in I1, I2 by (intros l Hl; apply (Fo x l Hx Hl)). change (is_horizontal LEFT_RIGHT) with true in *. cbn [lo hi] in I1, I2.
      destruct (Bo x Hx) as (_ & ((_ & Ax) & _) & _). destruct (Bo y Hy) as (_ & ((_ & Ay) & _) & _).
      exists (qmax (ry0 (b_bbox x)) (ry0 (b_bbox y))). unfold qmax. qcases; split; split; lra.
Qed.
