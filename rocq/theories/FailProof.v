From Verif Require Import FailSpec DocxProof.
From Coq Require Import Lia.
Open Scope nat_scope.

Lemma clean_strip l : clean l -> map strip l = l.
Proof.
  intros [_ C]. induction l as [|[k fs|id] t IH]; cbn in *; [reflexivity| |].
  - apply app_eq_nil in C. destruct C as [-> C]. rewrite IH by exact C. reflexivity.
  - rewrite IH by exact C. reflexivity.
Qed.
Lemma flow_table_para bs : forall b, existsb is_table bs = true -> existsb is_para (make_flow InDoc bs true b) = true.
Proof.
  assert (Mono : forall bs pre b, existsb is_para b = true -> existsb is_para (make_flow InDoc bs pre b) = true).
  { induction bs0 as [|x t IH]; intros pre b H; cbn [make_flow]; [exact H|]. destruct (is_text_image x); [apply IH; unfold add_paragraph; rewrite existsb_app, H; reflexivity|].
    destruct (is_table x); [|apply IH; exact H]. apply IH. unfold make_table, add_table, add_paragraph. destruct (_ || _); rewrite ?existsb_app, H; reflexivity. }
  induction bs as [|x t IH]; intros b H; [discriminate H|]. cbn [make_flow]. destruct (is_text_image x) eqn:T.
  - apply Mono. unfold add_paragraph. rewrite existsb_app. cbn. apply orb_true_r.
  - destruct (is_table x) eqn:X; [|apply IH; cbn in H; rewrite X in H; exact H]. apply Mono. unfold make_table. rewrite orb_true_r. unfold add_table, add_paragraph. rewrite !existsb_app. cbn. rewrite orb_true_r. reflexivity.
Qed.
Lemma flow_para bs : forall b, filter flowing bs <> [] -> (forall x, filter flowing bs = [x] -> is_table x = true -> (7 # 10 <= b_before x)%Q) ->
  existsb is_para (make_flow InDoc bs false b) = true.
Proof.
  assert (Mono : forall bs pre b, existsb is_para b = true -> existsb is_para (make_flow InDoc bs pre b) = true).
  { induction bs0 as [|x t IH]; intros pre b H; cbn [make_flow]; [exact H|]. destruct (is_text_image x); [apply IH; unfold add_paragraph; rewrite existsb_app, H; reflexivity|].
    destruct (is_table x); [|apply IH; exact H]. apply IH. unfold make_table, add_table, add_paragraph. destruct (_ || _); rewrite ?existsb_app, H; reflexivity. }
  assert (Text : forall bs pre b, existsb is_text_image bs = true -> existsb is_para (make_flow InDoc bs pre b) = true).
  { induction bs0 as [|x t IH]; intros pre b H; [discriminate H|]. cbn [make_flow]. cbn in H. destruct (is_text_image x); [apply Mono; unfold add_paragraph; rewrite existsb_app; cbn; apply orb_true_r|].
    destruct (is_table x); apply IH; exact H. }
  induction bs as [|x t IH]; intros b N H; [destruct N; reflexivity|]. cbn [make_flow filter] in *. unfold flowing at 1 in N. unfold flowing at 1 in H. destruct (is_text_image x) eqn:T; cbn [orb] in *.
  - apply Mono. unfold add_paragraph. rewrite existsb_app. cbn. apply orb_true_r.
  - destruct (is_table x) eqn:X; [|apply IH; assumption].
    destruct (filter flowing t) as [|y r] eqn:F.
    + apply Mono. specialize (H x eq_refl X). unfold make_table. destruct (qle_spec (7 # 10) (b_before x)) as [_|L]; [|destruct (L H)]. cbn [orb]. unfold add_table, add_paragraph. rewrite !existsb_app. cbn. rewrite orb_true_r. reflexivity.
    + assert (Iy : In y (filter flowing t)) by (rewrite F; left; reflexivity). apply filter_In in Iy. destruct Iy as [Iy Fy]. unfold flowing in Fy. apply orb_true_iff in Fy. destruct Fy as [Fy|Fy].
      * apply Text. apply existsb_exists. eauto.
      * apply flow_table_para. apply existsb_exists. eauto.
Qed.
Lemma in_firstn {A} n (l : list A) x : In x (firstn n l) -> In x l.
Proof. intros H. rewrite <- (firstn_skipn n l). apply in_or_app. left. exact H. Qed.
Lemma last_flow_app bs : forall p x, flowing x = true -> last_flow_table p (bs ++ [x]) = is_table x.
Proof.
  induction bs as [|y t IH]; intros p x H; cbn [app last_flow_table].
  - unfold flowing in H. destruct (is_text_image x) eqn:T; [symmetry; apply not_both; exact T|]. cbn in H. rewrite H. reflexivity.
  - destruct (is_text_image y); [apply IH; exact H|]. destruct (is_table y); apply IH; exact H.
Qed.

(** What a page adds. *)
Lemma try_spec p t b : possible (p, t) -> last_tab false b = false ->
  exists added, map strip (blocks_try t (p_blocks p) (p_floats p) b) = map strip b ++ added /\ clean added /\
    flat_map shows added = should_show (begun (p, t)) /\ adj false added /\
    ((forall k, t <> InBlock k) -> last_tab false added = false) /\ (b = [] -> ~ in_first_table (p, t) -> existsb is_para added = true).
Proof.
  intros (D & Pb) L. unfold begun. cbn [fst snd] in *. destruct t as [|k|n]; cbn [blocks_try].
  - destruct (blocks_spec InDoc (p_blocks p) (p_floats p) b D L) as (ad & E & C & S & A & La & P). exists ad. repeat (split; [auto|]). intros -> _. exact P.
  - destruct (flow_spec InDoc (firstn (Datatypes.S k) (p_blocks p)) false b) as (ad & E & C & S & A & _). { intros H. congruence. }
    rewrite L in A. exists ad. rewrite E, map_app, (clean_strip ad C). split; [reflexivity|]. split; [exact C|]. split; [exact S|]. split; [exact A|]. split; [intros H; destruct (H k eq_refl)|].
    intros -> N. cbn [app] in E. rewrite <- E. destruct (Pb k eq_refl) as (x & Ex & Fx). apply flow_para.
    + intros X. assert (I : In x (filter flowing (firstn (Datatypes.S k) (p_blocks p)))).
      { apply filter_In. split; [|exact Fx]. apply nth_error_In with k. clear - Ex. revert k Ex. induction (p_blocks p) as [|y l IH]; intros [|k] Ex; try discriminate Ex; [exact Ex|]. cbn [nth_error] in Ex. change (nth_error (firstn (Datatypes.S k) l) k = Some x). apply IH. exact Ex. }
      rewrite X in I. destruct I.
    + intros y Ey Ty. destruct (Qlt_le_dec (b_before y) (7 # 10)) as [Lt|Le]; [|exact Le]. exfalso. apply N. exists k, y. auto.
  - destruct (blocks_spec InDoc (p_blocks p) (firstn n (p_floats p)) b D L) as (ad & E & C & S & A & La & P). exists ad. repeat (split; [auto|]). intros -> _. exact P.
Qed.
Lemma try_images p t b : possible (p, t) -> last_tab false b = false ->
  flat_map images_of (blocks_try t (p_blocks p) (p_floats p) b) = flat_map images_of b ++ begun_floats (p, t).
Proof.
  intros (D & Pb) L. unfold begun_floats. cbn [fst snd] in *. destruct t as [|k|n]; cbn [blocks_try].
  - apply (blocks_images InDoc); assumption.
  - destruct (flow_spec InDoc (firstn (S k) (p_blocks p)) false b) as (ad & E & (_ & C) & _). { intros H. congruence. } rewrite E, flat_map_app, C. reflexivity.
  - apply (blocks_images InDoc (p_blocks p) (firstn n (p_floats p))); assumption.
Qed.
Definition good_try (c : body) (pt : page * trouble) : Prop := flat_map shows c = should_show (begun pt).
Definition inv_try (d : document) (done : list (page * trouble)) : Prop :=
  no_paragraphs (d_body d) = false /\ d_sections d = map (fun pt => p_section (fst pt)) done /\ adj false (d_body d) /\
  Forall2 good_try (sections_of [] (d_body d)) done /\ flat_map images_of (d_body d) = flat_map begun_floats done /\
  ((forall l p k, done <> l ++ [(p, InBlock k)]) -> last_tab false (d_body d) = false).
Lemma Forall2_try_strip cs cs' ps : map (map strip) cs = map (map strip) cs' -> Forall2 good_try cs ps -> Forall2 good_try cs' ps.
Proof.
  intros E H. revert cs' E. induction H as [|c p cs ps Hg _ IH]; intros cs' E; destruct cs' as [|c' cs']; try discriminate; constructor.
  - cbn in E. injection E as E _. unfold good_try in *. rewrite <- flat_shows_strip, <- E, flat_shows_strip. exact Hg.
  - cbn in E. injection E as _ E. apply IH. exact E.
Qed.
Lemma try_first tpl p t : possible (p, t) -> ~ in_first_table (p, t) -> inv_try (page_try (mkDoc [] [tpl]) (p, t)) [(p, t)].
Proof.
  intros Hp Hn. unfold page_try. change (no_paragraphs (d_body (mkDoc [] [tpl]))) with true. cbv iota. cbn [d_body d_sections tl].
  destruct (try_spec p t [] Hp eq_refl) as (ad & E & C & S & A & L & P). pose proof (try_images p t [] Hp eq_refl) as Im.
  set (r := blocks_try t (p_blocks p) (p_floats p) []) in *. cbn [map app flat_map] in E, Im.
  unfold inv_try. cbn [d_body d_sections map fst flat_map].
  split; [rewrite <- no_paragraphs_strip, E; unfold no_paragraphs; rewrite (P eq_refl Hn); reflexivity|].
  split; [reflexivity|]. split; [apply adj_strip; rewrite E; exact A|]. split; [|split; [rewrite app_nil_r; exact Im|]].
  - apply (Forall2_try_strip [ad]); [|constructor; [exact S|constructor]].
    rewrite sections_strip, E. destruct C as [C C']. rewrite (sections_nobreak ad _ C). cbn. f_equal. apply clean_strip. split; assumption.
  - intros H. rewrite <- last_tab_strip, E. apply L. intros k ->. exact (H [] p k eq_refl).
Qed.
Lemma try_step d done p t : possible (p, t) -> inv_try d done -> inv_try (page_try d (p, t)) (done ++ [(p, t)]).
Proof.
  intros Hd (N & Se & A & F & Im & _). unfold page_try. rewrite N. cbn [d_body d_sections].
  assert (Lb : last_tab false (add_paragraph PBreak (d_body d)) = false) by (unfold add_paragraph; rewrite last_tab_app; reflexivity).
  destruct (try_spec p t (add_paragraph PBreak (d_body d)) Hd Lb) as (ad & E & C & S & A' & L' & _). pose proof (try_images p t _ Hd Lb) as Im'.
  set (r := blocks_try t (p_blocks p) (p_floats p) (add_paragraph PBreak (d_body d))) in *.
  unfold add_paragraph in E. rewrite map_app in E. cbn [map strip] in E. rewrite <- app_assoc in E. cbn [app] in E.
  unfold inv_try. cbn [d_body d_sections].
  split; [rewrite <- no_paragraphs_strip, E, no_paragraphs_app; cbn; apply andb_false_r|].
  split; [rewrite Se, map_app; reflexivity|].
  split; [apply adj_strip; rewrite E; apply adj_app; split; [apply adj_strip; exact A|cbn [adj]; exact A']|].
  split; [|split].
  2:{ rewrite Im', flat_map_app. unfold add_paragraph. rewrite flat_map_app. cbn [flat_map images_of app]. rewrite !app_nil_r, Im. reflexivity. }
  2:{ intros H. rewrite <- last_tab_strip, E, last_tab_app. cbn [last_tab]. apply L'. intros k ->. exact (H done p k eq_refl). }
  destruct (sections_split (d_body d) []) as (i & la & Es). rewrite Es in F.
  apply (Forall2_try_strip (i ++ [la ++ [Para PBreak []]] ++ [ad])).
  - rewrite (sections_strip r), E. cbn [map].
    assert (Es' : sections_of [] (map strip (d_body d)) = map (map strip) i ++ [map strip la]).
    { change (@nil item) with (map strip []) at 1. rewrite <- sections_strip, Es, map_app. reflexivity. }
    rewrite (sections_app _ _ _ _ _ Es'). cbn [sections_of is_break]. pose proof (clean_strip ad C) as Cs. destruct C as [C1 C2].
    rewrite (sections_nobreak ad [] C1). rewrite !map_app. cbn [map app]. rewrite map_app. cbn [map strip]. rewrite Cs. reflexivity.
  - apply Forall2_app_inv_l in F. destruct F as (d1 & d2 & F1 & F2 & ->). inversion F2 as [|x y xs ys G F3]; subst. inversion F3; subst.
    rewrite <- app_assoc. apply Forall2_app; [exact F1|]. cbn [app]. constructor.
    + unfold good_try in *. rewrite flat_map_app, G. cbn. apply app_nil_r.
    + constructor; [exact S|constructor].
Qed.
Lemma try_all tpl pt pts : possible pt -> ~ in_first_table pt -> (forall q, In q pts -> possible q) -> inv_try (make_pages_try tpl (pt :: pts)) (pt :: pts).
Proof.
  intros Hp Hn Ha. unfold make_pages_try. cbn [fold_left].
  assert (G : forall rest d done, inv_try d done -> (forall q, In q rest -> possible q) -> inv_try (fold_left page_try rest d) (done ++ rest)).
  { induction rest as [|(q & u) r IH]; intros d done Hi Ht; cbn [fold_left]; [rewrite app_nil_r; exact Hi|].
    change (done ++ (q, u) :: r) with (done ++ [(q, u)] ++ r). rewrite app_assoc. apply IH; [|intros x Hx; apply Ht; right; exact Hx].
    apply try_step; [apply Ht; left; reflexivity|exact Hi]. }
  destruct pt as (p & t). apply (G pts _ [(p, t)]); [apply try_first; assumption|exact Ha].
Qed.
