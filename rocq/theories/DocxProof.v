(** Lemmas about the docx body. *)
From Verif Require Import DocxModel DocxSpec.
From Coq Require Import Lia.
Open Scope nat_scope.

(** Recursive form of "no two adjacent tables"; [p]: the previous item is a table. *)
Fixpoint adj (p : bool) (l : body) : Prop :=
  match l with
  | [] => True
  | Tab _ :: t => p = false /\ adj true t
  | Para _ _ :: t => adj false t
  end.
Fixpoint last_tab (p : bool) (l : body) : bool :=
  match l with
  | [] => p
  | Tab _ :: t => last_tab true t
  | Para _ _ :: t => last_tab false t
  end.
Lemma adj_app l : forall p m, adj p (l ++ m) <-> adj p l /\ adj (last_tab p l) m.
Proof. induction l as [|[k fs|id] t IH]; intros p m; cbn; [tauto|apply IH|rewrite IH; tauto]. Qed.
Lemma last_tab_app l : forall p m, last_tab p (l ++ m) = last_tab (last_tab p l) m.
Proof. induction l as [|[k fs|id] t IH]; intros p m; cbn; [reflexivity|apply IH|apply IH]. Qed.
Lemma adj_spec b : adj false b -> no_adjacent_tables b.
Proof.
  intros H l i j r E [(x & ->) (y & ->)]. subst b. rewrite adj_app in H. destruct H as [_ H]. cbn in H. destruct H as (_ & H & _). discriminate.
Qed.
Lemma last_tab_spec b : last_tab false b = false -> ~ ends_with_table b.
Proof. intros H (l & id & ->). rewrite last_tab_app in H. cbn in H. discriminate. Qed.

(** Forget floating images. *)
Definition strip (i : item) : item := match i with Para k _ => Para k [] | Tab id => Tab id end.
Lemma shows_strip i : shows (strip i) = shows i. Proof. destruct i as [[]|]; reflexivity. Qed.
Lemma break_strip i : is_break (strip i) = is_break i. Proof. destruct i as [[]|]; reflexivity. Qed.
Lemma flat_shows_strip l : flat_map shows (map strip l) = flat_map shows l.
Proof. induction l as [|i t IH]; cbn; [reflexivity|]. rewrite shows_strip, IH. reflexivity. Qed.
Lemma adj_strip l : forall p, adj p (map strip l) <-> adj p l.
Proof. induction l as [|[k fs|id] t IH]; intros p; cbn; [tauto|apply IH|rewrite IH; tauto]. Qed.
Lemma last_tab_strip l : forall p, last_tab p (map strip l) = last_tab p l.
Proof. induction l as [|[k fs|id] t IH]; intros p; cbn; [reflexivity|apply IH|apply IH]. Qed.
Lemma sections_strip l : forall cur, map (map strip) (sections_of cur l) = sections_of (map strip cur) (map strip l).
Proof.
  induction l as [|i t IH]; intros cur; cbn; [reflexivity|]. rewrite break_strip.
  destruct (is_break i); cbn; rewrite IH, !map_app; reflexivity.
Qed.
Lemma anchor_first_strip imgs rb : map strip (anchor_first imgs rb) = map strip rb.
Proof. induction rb as [|[k fs|id] t IH]; cbn; [reflexivity|reflexivity|rewrite IH; reflexivity]. Qed.
Lemma anchor_last_strip imgs b : map strip (anchor_last imgs b) = map strip b.
Proof. unfold anchor_last. rewrite map_rev, anchor_first_strip, <- map_rev, rev_involutive. reflexivity. Qed.

(** The flow of blocks. *)
Definition clean (l : body) : Prop := forallb (fun i => negb (is_break i)) l = true /\ flat_map images_of l = [].
Lemma clean_app l m : clean l -> clean m -> clean (l ++ m).
Proof. unfold clean. intros [A B] [C D]. rewrite forallb_app, flat_map_app, A, B, C, D. auto. Qed.
Definition defined (bs : list block) : Prop := forall b, In b bs -> b_type b <> UNDEFINED.
Definition flowing (b : block) : bool := is_text_image b || is_table b.
(** The last flowing block is a table. *)
Fixpoint last_flow_table (p : bool) (bs : list block) : bool :=
  match bs with
  | [] => p
  | x :: t => if is_text_image x then last_flow_table false t else if is_table x then last_flow_table true t else last_flow_table p t
  end.
Lemma not_both x : is_text_image x = true -> is_table x = false.
Proof. unfold is_text_image, is_table. destruct (b_type x); congruence. Qed.

Lemma make_table_spec c x pre b : exists added, make_table c x pre b = b ++ added /\ clean added /\
  flat_map shows added = [(b_id x, true)] /\ (forall q, (q = true -> pre = true) -> adj q added) /\
  (last_tab false added = match c with InDoc => true | InCell => false end) /\ added <> [].
Proof.
  unfold make_table, add_paragraph, add_table.
  destruct (qle (7 # 10) (b_before x) || pre) eqn:E, c; cbv iota; rewrite <- ?app_assoc; eexists;
    (split; [reflexivity|]); (split; [split; reflexivity|]); (split; [reflexivity|]); (split; [|split; [reflexivity|discriminate]]);
    intros q Hq; cbn; auto; destruct q; try (specialize (Hq eq_refl); subst pre; rewrite orb_true_r in E; discriminate); auto.
Qed.
Lemma last_tab_ne l : l <> [] -> forall p q, last_tab p l = last_tab q l.
Proof. destruct l as [|[k fs|id] t]; intros H p q; [contradiction|reflexivity|reflexivity]. Qed.

Lemma flow_spec c bs : forall pre b, (last_tab false b = true -> pre = true) ->
  exists added, make_flow c bs pre b = b ++ added /\ clean added /\ flat_map shows added = should_show bs /\
    adj (last_tab false b) added /\ (last_tab false (b ++ added) = true -> last_flow_table pre bs = true) /\
    (existsb is_text_image bs = true -> existsb is_para added = true) /\ (added = [] -> existsb flowing bs = false).
Proof.
  induction bs as [|x t IH]; intros pre b Hb.
  - exists []. cbn. rewrite app_nil_r. repeat split; auto; discriminate.
  - cbn [make_flow last_flow_table]. unfold should_show. cbn [filter existsb]. unfold flowing.
    destruct (is_text_image x) eqn:Ex; cbn [orb].
    + destruct (IH false (add_paragraph (PBlock (b_id x)) b)) as (added & E & C & S & A & L & P & N).
      { unfold add_paragraph. rewrite last_tab_app. cbn. congruence. }
      exists (Para (PBlock (b_id x)) [] :: added). rewrite E. unfold add_paragraph in *. rewrite <- app_assoc. cbn [app].
      split; [reflexivity|]. split; [destruct C as [C1 C2]; split; cbn; [exact C1|exact C2]|].
      split; [cbn [flat_map shows app map]; rewrite S, (not_both x Ex); reflexivity|].
      split; [cbn [adj]; rewrite last_tab_app in A; cbn in A; exact A|].
      split; [intros H; apply L; rewrite <- app_assoc; exact H|]. split; [reflexivity|discriminate].
    + destruct (is_table x) eqn:Et; cbn [orb].
      * destruct (make_table_spec c x pre b) as (ad & E1 & C1 & S1 & A1 & L1 & N1).
        destruct (IH true (make_table c x pre b)) as (added & E & C & S & A & L & P & N); [reflexivity|].
        exists (ad ++ added). rewrite E, E1, <- app_assoc. split; [reflexivity|]. split; [apply clean_app; assumption|].
        split; [rewrite flat_map_app, S1, S; cbn [map app]; rewrite Et; reflexivity|].
        rewrite E1, last_tab_app in A. 
        split; [apply adj_app; split; [apply A1; exact Hb|exact A]|].
        split; [intros H; apply L; rewrite E1, <- app_assoc; exact H|].
        split; [intros H; rewrite existsb_app, (P H); apply orb_true_r|].
        intros H. apply app_eq_nil in H. destruct H as [H _]. contradiction.
      * destruct (IH pre b Hb) as (added & E & C & S & A & L & P & N). exists added. auto 10.
Qed.

Lemma trailing_spec rbs : forall b, exists n, add_trailing rbs b = b ++ repeat (Para PTrail []) n /\
  (last_flow_table false (rev rbs) = true -> (forall x, In x rbs -> b_type x <> UNDEFINED) -> 0 < n).
Proof.
  induction rbs as [|x t IH]; intros b.
  - exists 0. cbn. rewrite app_nil_r. split; [reflexivity|discriminate].
  - cbn [add_trailing rev].
    assert (Hl : last_flow_table false (rev t ++ [x]) = if is_text_image x then false else if is_table x then true else last_flow_table false (rev t)).
    { clear IH. generalize false at 1 3. induction (rev t) as [|y s IHs]; intros p; cbn; [reflexivity|].
      destruct (is_text_image y); [apply (IHs false)|]. destruct (is_table y); apply IHs. }
    rewrite Hl. clear Hl. destruct (is_float x) eqn:Ef.
    + destruct (IH b) as (n & E & H). exists n. split; [exact E|]. intros H1 H2. apply H; [|intros y Hy; apply H2; right; exact Hy].
      unfold is_float, is_text_image, is_table in *. destruct (b_type x); try discriminate. exact H1.
    + destruct (is_table x) eqn:Et; cbn [negb].
      * destruct (IH (add_paragraph PTrail b)) as (n & E & _). exists (S n). rewrite E. unfold add_paragraph. rewrite <- app_assoc. split; [reflexivity|lia].
      * exists 0. cbn. rewrite app_nil_r. split; [reflexivity|]. intros H1 H2. exfalso.
        unfold is_float, is_text_image, is_table in *. specialize (H2 x (or_introl eq_refl)). destruct (b_type x); try discriminate; congruence.
Qed.
Lemma trail_clean n : clean (repeat (Para PTrail []) n) /\ flat_map shows (repeat (Para PTrail []) n) = [] /\ adj false (repeat (Para PTrail []) n).
Proof. induction n as [|n ([C1 C2] & S & A)]; cbn; [repeat split; reflexivity|]. split; [split; cbn; assumption|]. split; assumption. Qed.
Lemma trail_adj n p : adj p (repeat (Para PTrail []) n).
Proof. destruct n; cbn; [exact I|]. apply trail_clean. Qed.
Lemma trail_last n p : 0 < n -> last_tab p (repeat (Para PTrail []) n) = false.
Proof. intros H. destruct n; [lia|]. cbn. clear. induction n; cbn; [reflexivity|exact IHn]. Qed.

(** Blocks.make_docx before the images are anchored. *)
Lemma core_spec c bs b : defined bs -> last_tab false b = false ->
  exists added, add_trailing (rev bs) (make_flow c bs false b) = b ++ added /\ clean added /\
    flat_map shows added = should_show bs /\ adj false added /\ last_tab false added = false /\
    (should_show bs <> [] -> existsb is_para added = true).
Proof.
  intros Hd Hb. destruct (flow_spec c bs false b) as (ad & E & C & S & A & L & P & N); [congruence|].
  rewrite E. destruct (trailing_spec (rev bs) (b ++ ad)) as (n & E2 & Hn).
  rewrite rev_involutive in Hn.
  exists (ad ++ repeat (Para PTrail []) n). rewrite E2, <- app_assoc. split; [reflexivity|].
  destruct (trail_clean n) as (T1 & T2 & T3). split; [apply clean_app; assumption|].
  split; [rewrite flat_map_app, S, T2, app_nil_r; reflexivity|]. rewrite Hb in A.
  split; [apply adj_app; split; [exact A|apply trail_adj]|].
  assert (Hl : last_tab false ad = true -> 0 < n).
  { intros H. apply Hn; [apply L; rewrite last_tab_app, Hb; exact H|]. intros x Hx. apply Hd. apply in_rev. exact Hx. }
  split.
  - rewrite last_tab_app. destruct (last_tab false ad) eqn:El; [apply trail_last; auto|].
    destruct n; [reflexivity|]. apply trail_last. lia.
  - intros Hs. rewrite existsb_app. destruct (existsb is_para ad) eqn:Ep; [reflexivity|]. cbn [orb].
    assert (Hne : ad <> []). { intros ->. cbn in S. congruence. }
    assert (last_tab false ad = true).
    { clear - Ep Hne. destruct ad as [|[k fs|id] t]; [contradiction|discriminate|]. cbn in *. clear Hne.
      induction t as [|[k fs|id'] t IH]; cbn in *; [reflexivity|discriminate|apply IH; exact Ep]. }
    destruct n; [specialize (Hl H); lia|reflexivity].
Qed.

Lemma no_paragraphs_app l m : no_paragraphs (l ++ m) = no_paragraphs l && no_paragraphs m.
Proof. unfold no_paragraphs. rewrite existsb_app, negb_orb. reflexivity. Qed.
Lemma no_paragraphs_strip l : no_paragraphs (map strip l) = no_paragraphs l.
Proof. unfold no_paragraphs. f_equal. induction l as [|[k fs|id] t IH]; cbn; [reflexivity|reflexivity|exact IH]. Qed.

(** Anchoring images. *)
Lemma anchor_first_app imgs l m : existsb is_para l = true -> anchor_first imgs (l ++ m) = anchor_first imgs l ++ m.
Proof. induction l as [|[k fs|id] t IH]; cbn; intros H; [discriminate|reflexivity|rewrite IH by exact H; reflexivity]. Qed.
Lemma existsb_rev {A} (f : A -> bool) l : existsb f (rev l) = existsb f l.
Proof. induction l as [|x t IH]; cbn; [reflexivity|]. rewrite existsb_app, IH. cbn. rewrite orb_false_r. apply orb_comm. Qed.
Lemma anchor_last_app imgs l m : existsb is_para m = true -> anchor_last imgs (l ++ m) = l ++ anchor_last imgs m.
Proof.
  intros H. unfold anchor_last. rewrite rev_app_distr, anchor_first_app by (rewrite existsb_rev; exact H).
  rewrite rev_app_distr, rev_involutive. reflexivity.
Qed.
Lemma anchor_last_images imgs b : existsb is_para b = true -> flat_map images_of (anchor_last imgs b) = flat_map images_of b ++ imgs.
Proof.
  intros H. unfold anchor_last. rewrite <- (existsb_rev is_para) in H.
  rewrite <- (rev_involutive b) at 2. induction (rev b) as [|[k fs|id] t IH]; cbn in *; [discriminate| |].
  - rewrite !flat_map_app. cbn. rewrite !app_nil_r, app_assoc. reflexivity.
  - rewrite !flat_map_app, IH by exact H. cbn. rewrite !app_nil_r. reflexivity.
Qed.
Lemma add_floats_has imgs b : existsb is_para (add_floats imgs b) = true.
Proof.
  enough (H : no_paragraphs (add_floats imgs b) = false) by (unfold no_paragraphs in H; apply negb_false_iff in H; exact H).
  unfold add_floats. rewrite <- no_paragraphs_strip, anchor_last_strip, no_paragraphs_strip.
  destruct (no_paragraphs b) eqn:E; [|exact E]. unfold add_paragraph. rewrite no_paragraphs_app. cbn. apply andb_false_r.
Qed.

(** Blocks.make_docx up to images. *)
Lemma blocks_spec c bs imgs b : defined bs -> last_tab false b = false ->
  exists added, map strip (blocks_make_docx c bs imgs b) = map strip b ++ added /\ clean added /\
    flat_map shows added = should_show bs /\ adj false added /\ last_tab false added = false /\
    (existsb is_para (b ++ added) = true).
Proof.
  intros Hd Hb. destruct (core_spec c bs b Hd Hb) as (ad & E & C & S & A & L & P).
  assert (Hst : map strip ad = ad).
  { destruct C as [_ C]. clear - C. induction ad as [|[k fs|id] t IH]; cbn in *; [reflexivity| |].
    - apply app_eq_nil in C. destruct C as [-> C]. rewrite IH by exact C. reflexivity.
    - rewrite IH by exact C. reflexivity. }
  unfold blocks_make_docx, add_floats. rewrite anchor_last_strip, E.
  destruct (no_paragraphs (b ++ ad)) eqn:En.
  - exists (ad ++ [Para PAuto []]). unfold add_paragraph. rewrite !map_app, Hst, <- app_assoc. cbn [map strip].
    split; [reflexivity|]. split; [apply clean_app; [exact C|split; reflexivity]|].
    split; [rewrite flat_map_app, S; cbn; apply app_nil_r|].
    split; [apply adj_app; split; [exact A|cbn; exact I]|].
    split; [rewrite last_tab_app; reflexivity|]. rewrite !existsb_app. cbn. rewrite !orb_true_r. reflexivity.
  - exists ad. rewrite map_app, Hst. unfold no_paragraphs in En. apply negb_false_iff in En. auto 10.
Qed.

(** Sections. *)
Definition upd_last {A} (f : A -> A) (l : list A) : list A :=
  match rev l with [] => [] | x :: t => rev (f x :: t) end.
Lemma upd_last_app {A} (f : A -> A) l x : upd_last f (l ++ [x]) = l ++ [f x].
Proof. unfold upd_last. rewrite rev_app_distr. cbn. rewrite rev_involutive. reflexivity. Qed.
Lemma sections_split l : forall cur, exists i la, sections_of cur l = i ++ [la].
Proof.
  induction l as [|x t IH]; intros cur; cbn; [exists [], cur; reflexivity|].
  destruct (is_break x); [|apply IH]. destruct (IH []) as (i & la & ->). exists ((cur ++ [x]) :: i), la. reflexivity.
Qed.
Lemma sections_app l : forall cur m i la, sections_of cur l = i ++ [la] -> sections_of cur (l ++ m) = i ++ sections_of la m.
Proof.
  induction l as [|x t IH]; intros cur m i la E; cbn in *.
  - destruct i as [|y i]; [injection E as ->; reflexivity|]. injection E as -> E. destruct i; discriminate.
  - destruct (is_break x); [|apply IH; exact E].
    destruct i as [|y i]; cbn in E.
    + injection E as E1 E2. destruct (sections_split t []) as (i' & la' & E'). rewrite E' in E2. destruct i'; discriminate.
    + injection E as -> E. cbn. f_equal. apply IH. exact E.
Qed.
Lemma sections_nobreak m : forall cur, forallb (fun i => negb (is_break i)) m = true -> sections_of cur m = [cur ++ m].
Proof.
  induction m as [|x t IH]; intros cur H; cbn in *; [rewrite app_nil_r; reflexivity|].
  apply andb_true_iff in H. destruct H as [H1 H2]. apply negb_true_iff in H1. rewrite H1, IH by exact H2.
  rewrite <- app_assoc. reflexivity.
Qed.

Definition good (c : body) (p : page) : Prop := flat_map shows c = should_show (p_blocks p).
(** Invariant of Document after pages [done] (not empty). *)
Definition inv (d : document) (done : list page) : Prop :=
  no_paragraphs (d_body d) = false /\ d_sections d = map p_section done /\
  adj false (d_body d) /\ last_tab false (d_body d) = false /\
  Forall2 good (sections_of [] (d_body d)) done.
Lemma Forall2_good_strip cs cs' ps : map (map strip) cs = map (map strip) cs' -> Forall2 good cs ps -> Forall2 good cs' ps.
Proof.
  intros E H. revert cs' E. induction H as [|c p cs ps Hg _ IH]; intros cs' E; destruct cs' as [|c' cs']; try discriminate; constructor.
  - cbn in E. injection E as E _. unfold good in *. rewrite <- flat_shows_strip, <- E, flat_shows_strip. exact Hg.
  - cbn in E. injection E as _ E. apply IH. exact E.
Qed.
Lemma inv_first tpl p : defined (p_blocks p) -> inv (page_make_docx (mkDoc [] [tpl]) p) [p].
Proof.
  intros Hd. unfold page_make_docx. cbn [no_paragraphs existsb negb d_body d_sections tl].
  change (no_paragraphs []) with true. cbv iota. cbn [d_body d_sections tl].
  destruct (blocks_spec InDoc (p_blocks p) (p_floats p) [] Hd eq_refl) as (ad & E & C & S & A & L & P).
  set (r := blocks_make_docx InDoc (p_blocks p) (p_floats p) []) in *. cbn [map app] in E.
  split; [cbn [d_body]; rewrite <- no_paragraphs_strip, E; unfold no_paragraphs; cbn [app] in P; rewrite P; reflexivity|].
  split; [reflexivity|]. cbn [d_body]. split; [apply adj_strip; rewrite E; exact A|].
  split; [rewrite <- last_tab_strip, E; exact L|].
  apply (Forall2_good_strip [ad]).
  - rewrite sections_strip, E. destruct C as [C _]. rewrite (sections_nobreak ad _ C). cbn.
    f_equal. rewrite <- E, map_map. rewrite <- (map_id r) at 2. rewrite map_map. apply map_ext. intros i. destruct i; reflexivity.
  - constructor; [exact S|constructor].
Qed.
Lemma strip_strip l : map strip (map strip l) = map strip l.
Proof. rewrite map_map. apply map_ext. intros []; reflexivity. Qed.
Lemma inv_step d done p : defined (p_blocks p) -> inv d done -> inv (page_make_docx d p) (done ++ [p]).
Proof.
  intros Hd (N & Se & A & L & F). unfold page_make_docx. rewrite N. cbn [d_body d_sections].
  destruct (blocks_spec InDoc (p_blocks p) (p_floats p) (add_paragraph PBreak (d_body d)) Hd) as (ad & E & C & S & A' & L' & P').
  { unfold add_paragraph. rewrite last_tab_app. reflexivity. }
  set (r := blocks_make_docx InDoc (p_blocks p) (p_floats p) (add_paragraph PBreak (d_body d))) in *.
  unfold add_paragraph in E. rewrite map_app in E. cbn [map strip] in E. rewrite <- app_assoc in E. cbn [app] in E.
  split; [cbn [d_body]; rewrite <- no_paragraphs_strip, E, no_paragraphs_app; cbn; apply andb_false_r|].
  split; [cbn [d_sections]; rewrite Se, map_app; reflexivity|]. cbn [d_body].
  split; [apply adj_strip; rewrite E; apply adj_app; split; [apply adj_strip; exact A|cbn [adj]; exact A']|].
  split; [rewrite <- last_tab_strip, E, last_tab_app; cbn [last_tab]; exact L'|].
  destruct (sections_split (d_body d) []) as (i & la & Es). rewrite Es in F.
  apply (Forall2_good_strip (i ++ [la ++ [Para PBreak []]] ++ [ad])).
  - rewrite (sections_strip r), E. cbn [map].
    assert (Es' : sections_of [] (map strip (d_body d)) = map (map strip) i ++ [map strip la]).
    { change (@nil item) with (map strip []) at 1. rewrite <- sections_strip, Es, map_app. reflexivity. }
    rewrite (sections_app _ _ _ _ _ Es'). cbn [sections_of is_break]. destruct C as [C1 C2].
    rewrite (sections_nobreak ad [] C1). rewrite !map_app. cbn [map app]. rewrite map_app. cbn [map strip].
    f_equal. f_equal. f_equal. f_equal. clear - C2. induction ad as [|[k fs|id] t IH]; cbn in *; [reflexivity| |].
    + apply app_eq_nil in C2. destruct C2 as [-> C2]. rewrite IH by exact C2. reflexivity.
    + rewrite IH by exact C2. reflexivity.
  - apply Forall2_app_inv_l in F. destruct F as (d1 & d2 & F1 & F2 & ->). inversion F2 as [|x y xs ys G F3]; subst. inversion F3; subst.
    rewrite <- app_assoc. apply Forall2_app; [exact F1|]. cbn [app]. constructor.
    + unfold good in *. rewrite flat_map_app, G. cbn. apply app_nil_r.
    + constructor; [exact S|constructor].
Qed.
Lemma make_pages_inv tpl ps : ps <> [] -> (forall p, In p ps -> defined (p_blocks p)) -> inv (make_pages tpl ps) ps.
Proof.
  intros Hne Hd. destruct ps as [|p0 ps]; [contradiction|]. unfold make_pages. cbn [fold_left].
  assert (G : forall rest d done, inv d done -> (forall p, In p rest -> defined (p_blocks p)) -> inv (fold_left page_make_docx rest d) (done ++ rest)).
  { induction rest as [|p t IH]; intros d done Hi Ht; cbn [fold_left]; [rewrite app_nil_r; exact Hi|].
    change (done ++ p :: t) with (done ++ [p] ++ t). rewrite app_assoc. apply IH; [|intros q Hq; apply Ht; right; exact Hq].
    apply inv_step; [apply Ht; left; reflexivity|exact Hi]. }
  apply (G ps _ [p0]); [apply inv_first; apply Hd; left; reflexivity|]. intros p Hp. apply Hd. right. exact Hp.
Qed.

(** Images. *)
Lemma blocks_images c bs imgs b : defined bs -> last_tab false b = false ->
  flat_map images_of (blocks_make_docx c bs imgs b) = flat_map images_of b ++ imgs.
Proof.
  intros Hd Hb. unfold blocks_make_docx, add_floats. destruct (core_spec c bs b Hd Hb) as (ad & E & [_ C] & _). rewrite E.
  destruct (no_paragraphs (b ++ ad)) eqn:En.
  - rewrite anchor_last_images by (unfold add_paragraph; rewrite existsb_app; cbn; apply orb_true_r).
    unfold add_paragraph. rewrite !flat_map_app, C. cbn. rewrite !app_nil_r. reflexivity.
  - unfold no_paragraphs in En. apply negb_false_iff in En. rewrite anchor_last_images by exact En.
    rewrite flat_map_app, C, app_nil_r. reflexivity.
Qed.
Lemma images_conserved tpl ps : (forall p, In p ps -> defined (p_blocks p)) ->
  flat_map images_of (d_body (make_pages tpl ps)) = flat_map p_floats ps.
Proof.
  destruct ps as [|p0 ps]; intros Hd; [reflexivity|]. unfold make_pages. cbn [fold_left].
  assert (G : forall rest d done, inv d done -> (forall p, In p rest -> defined (p_blocks p)) ->
     flat_map images_of (d_body (fold_left page_make_docx rest d)) = flat_map images_of (d_body d) ++ flat_map p_floats rest).
  { induction rest as [|p t IH]; intros d done Hi Ht; cbn [fold_left flat_map]; [rewrite app_nil_r; reflexivity|].
    assert (Hp : defined (p_blocks p)) by (apply Ht; left; reflexivity).
    rewrite (IH (page_make_docx d p) (done ++ [p])); [|apply inv_step; assumption|intros q Hq; apply Ht; right; exact Hq].
    rewrite app_assoc. f_equal. destruct Hi as (N & _). unfold page_make_docx. rewrite N. cbn [d_body].
    rewrite blocks_images; [|exact Hp|unfold add_paragraph; rewrite last_tab_app; reflexivity].
    unfold add_paragraph. rewrite flat_map_app. cbn. rewrite app_nil_r. reflexivity. }
  assert (H0 : defined (p_blocks p0)) by (apply Hd; left; reflexivity).
  rewrite (G ps _ [p0]); [|apply inv_first; exact H0|intros p Hp; apply Hd; right; exact Hp].
  unfold page_make_docx at 1. change (no_paragraphs (d_body (mkDoc [] [tpl]))) with true. cbv iota. cbn [d_body].
  rewrite blocks_images; [reflexivity|exact H0|reflexivity].
Qed.

(** With at least one flowing block on each page but the first, the images stay on their page. *)
Definition img_good (c : body) (p : page) : Prop := flat_map images_of c = p_floats p.
Lemma anchor_first_nobreak imgs rb : forallb (fun i => negb (is_break i)) rb = true -> forallb (fun i => negb (is_break i)) (anchor_first imgs rb) = true.
Proof.
  induction rb as [|[k fs|id] t IH]; cbn; intros H; [reflexivity| |].
  - apply andb_true_iff in H. destruct H as [H1 H2]. rewrite H2. destruct k; cbn in *; try reflexivity. discriminate.
  - apply IH. exact H.
Qed.
Lemma forallb_rev {A} (f : A -> bool) l : forallb f (rev l) = forallb f l.
Proof. induction l as [|x t IH]; cbn; [reflexivity|]. rewrite forallb_app, IH. cbn. rewrite andb_true_r. apply andb_comm. Qed.
Lemma blocks_local bs imgs b : defined bs -> last_tab false b = false -> should_show bs <> [] ->
  exists added, blocks_make_docx InDoc bs imgs b = b ++ added /\ flat_map images_of added = imgs /\
    forallb (fun i => negb (is_break i)) added = true.
Proof.
  intros Hd Hb Hs. destruct (core_spec InDoc bs b Hd Hb) as (ad & E & [C1 C2] & S & A & L & P). specialize (P Hs).
  unfold blocks_make_docx, add_floats. rewrite E.
  assert (En : no_paragraphs (b ++ ad) = false) by (unfold no_paragraphs; rewrite existsb_app, P, orb_true_r; reflexivity).
  rewrite En, anchor_last_app by exact P. exists (anchor_last imgs ad). split; [reflexivity|].
  split; [rewrite anchor_last_images, C2 by exact P; reflexivity|].
  unfold anchor_last. rewrite forallb_rev. apply anchor_first_nobreak. rewrite forallb_rev. exact C1.
Qed.
Lemma img_first tpl p : defined (p_blocks p) -> Forall2 img_good (sections_of [] (d_body (page_make_docx (mkDoc [] [tpl]) p))) [p].
Proof.
  intros Hd. unfold page_make_docx. change (no_paragraphs (d_body (mkDoc [] [tpl]))) with true. cbv iota. cbn [d_body].
  rewrite sections_nobreak.
  - constructor; [|constructor]. unfold img_good. cbn [app]. rewrite blocks_images; [reflexivity|exact Hd|reflexivity].
  - destruct (blocks_spec InDoc (p_blocks p) (p_floats p) [] Hd eq_refl) as (ad & E & [C _] & _). cbn [map app] in E.
    rewrite <- E in C. clear - C. induction (blocks_make_docx InDoc (p_blocks p) (p_floats p) []) as [|i t IH]; cbn in *; [reflexivity|].
    rewrite break_strip in C. apply andb_true_iff in C. destruct C as [-> C]. apply IH. exact C.
Qed.
Lemma img_step d done p : defined (p_blocks p) -> should_show (p_blocks p) <> [] -> inv d done ->
  Forall2 img_good (sections_of [] (d_body d)) done ->
  Forall2 img_good (sections_of [] (d_body (page_make_docx d p))) (done ++ [p]).
Proof.
  intros Hd Hs (N & _) F. unfold page_make_docx. rewrite N. cbn [d_body].
  destruct (blocks_local (p_blocks p) (p_floats p) (add_paragraph PBreak (d_body d)) Hd) as (ad & E & I & B).
  { unfold add_paragraph. rewrite last_tab_app. reflexivity. } { exact Hs. }
  rewrite E. unfold add_paragraph. rewrite <- app_assoc. cbn [app].
  destruct (sections_split (d_body d) []) as (i & la & Es). rewrite (sections_app _ _ _ _ _ Es). cbn [sections_of is_break].
  rewrite (sections_nobreak ad [] B). rewrite Es in F.
  apply Forall2_app_inv_l in F. destruct F as (d1 & d2 & F1 & F2 & ->). inversion F2 as [|x y xs ys G F3]; subst. inversion F3; subst.
  rewrite <- app_assoc. apply Forall2_app; [exact F1|]. cbn [app]. constructor.
  - unfold img_good in *. rewrite flat_map_app, G. cbn. apply app_nil_r.
  - constructor; [exact I|constructor].
Qed.
Lemma images_local tpl ps : ps <> [] -> (forall p, In p ps -> defined (p_blocks p)) ->
  (forall p, In p (tl ps) -> should_show (p_blocks p) <> []) ->
  Forall2 img_good (sections_of [] (d_body (make_pages tpl ps))) ps.
Proof.
  intros Hne Hd Hs. destruct ps as [|p0 ps]; [contradiction|]. unfold make_pages. cbn [fold_left tl] in *.
  assert (G : forall rest d done, inv d done -> Forall2 img_good (sections_of [] (d_body d)) done ->
     (forall p, In p rest -> defined (p_blocks p)) -> (forall p, In p rest -> should_show (p_blocks p) <> []) ->
     Forall2 img_good (sections_of [] (d_body (fold_left page_make_docx rest d))) (done ++ rest)).
  { induction rest as [|p t IH]; intros d done Hi F Ht Hf; cbn [fold_left]; [rewrite app_nil_r; exact F|].
    change (done ++ p :: t) with (done ++ [p] ++ t). rewrite app_assoc.
    apply IH; [apply inv_step; [apply Ht; left; reflexivity|exact Hi]| | |].
    - apply img_step; [apply Ht; left; reflexivity|apply Hf; left; reflexivity|exact Hi|exact F].
    - intros q Hq. apply Ht. right. exact Hq.
    - intros q Hq. apply Hf. right. exact Hq. }
  apply (G ps _ [p0]).
  - apply inv_first. apply Hd. left. reflexivity.
  - apply img_first. apply Hd. left. reflexivity.
  - intros p Hp. apply Hd. right. exact Hp.
  - exact Hs.
Qed.

(** Cells. *)
Lemma cell_spec bs imgs : defined bs ->
  flat_map shows (cell_content bs imgs) = should_show bs /\ no_adjacent_tables (cell_content bs imgs) /\
  (exists l k fs, cell_content bs imgs = l ++ [Para k fs]) /\ (bs <> [] -> flat_map images_of (cell_content bs imgs) = imgs).
Proof.
  intros Hd. unfold cell_content. destruct bs as [|b0 bs].
  - split; [reflexivity|]. split; [apply adj_spec; exact I|]. split; [exists [], PAuto, []; reflexivity|]. intros H; contradiction.
  - remember (b0 :: bs) as l0 eqn:El. clear El b0 bs. rename l0 into bs.
    destruct (blocks_spec InCell bs imgs [] Hd eq_refl) as (ad & E & C & S & A & L & P).
    set (r := blocks_make_docx InCell bs imgs []) in *. cbn [map app] in E, P.
    split; [rewrite <- flat_shows_strip, E; exact S|].
    split; [apply adj_spec; apply adj_strip; rewrite E; exact A|].
    split.
    + assert (Hne : r <> []) by (intros Hr; rewrite Hr in E; cbn in E; subst ad; discriminate).
      destruct (exists_last Hne) as (l & x & Er). destruct x as [k fs|id]; [exists l, k, fs; exact Er|].
      exfalso. assert (Hl : last_tab false r = false) by (rewrite <- last_tab_strip, E; exact L).
      rewrite Er, last_tab_app in Hl. discriminate.
    + intros _. unfold r. rewrite blocks_images; [reflexivity|exact Hd|reflexivity].
Qed.

(** Number of extra paragraphs after trailing tables. *)
Lemma trailing_count rs : forall b rest, (forall x, In x rs -> is_table x || is_float x = true) ->
  (match rest with [] => True | x :: _ => is_text_image x = true end) ->
  add_trailing (rs ++ rest) b = b ++ repeat (Para PTrail []) (length (filter is_table rs)).
Proof.
  induction rs as [|x t IH]; intros b rest H Hr; cbn [app add_trailing filter].
  - destruct rest as [|y rest]; cbn; [rewrite app_nil_r; reflexivity|].
    unfold is_float, is_table, is_text_image in *. destruct (b_type y); try discriminate Hr; cbn; rewrite app_nil_r; reflexivity.
  - assert (Hx := H x (or_introl eq_refl)).
    assert (Ht : forall y, In y t -> is_table y || is_float y = true) by (intros y Hy; apply H; right; exact Hy).
    unfold is_float, is_table in Hx |- *. destruct (b_type x); try discriminate Hx; cbn; rewrite (IH _ _ Ht Hr); try reflexivity;
      unfold add_paragraph; rewrite <- app_assoc; reflexivity.
Qed.
Open Scope Q_scope.
Lemma dummy_height_bound b : 0 <= b -> 0 <= dummy_height b <= b /\ b < dummy_height b + (1 # 10).
Proof.
  intros H. unfold dummy_height. destruct (qtrunc_nonneg (10 * b)) as [P1 [P2 P3]]; [lra|].
  assert (0 <= inject_Z (qtrunc (10 * b))) by (change 0 with (inject_Z 0); apply inject_Z_le; exact P1).
  unfold Qdiv. change (/ 10) with (1 # 10). lra.
Qed.
