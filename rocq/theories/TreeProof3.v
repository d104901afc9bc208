(** Structure of the document tree; whole documents. *)
From Verif Require Import TreeSpec TreeProof TreeProof2 WordProof WordProof2 WordProof3 WordProps.
From Verif Require DocxModel DocxSpec DocxProof DocxProps.
From Coq Require Import Lia.
Open Scope nat_scope.

Lemma closed_items l : (forall d, In d l -> closed [d]) -> closed l.
Proof. intros H. constructor. intros a hs g row t H1 H2 H3. specialize (H _ H1). inversion H as [? K]; subst. apply (K a hs g row t); [left; reflexivity|exact H2|exact H3]. Qed.
Lemma closed_in l d : closed l -> In d l -> closed [d].
Proof. intros H Hd. inversion H as [? K]; subst. constructor. intros a hs g row t [->|[]] H2 H3. apply (K a hs g row t Hd H2 H3). Qed.
Lemma closed_para d : ~ is_dtable d -> closed [d].
Proof. intros H. constructor. intros a hs g row t [->|[]]. exfalso. apply H. exists a, hs, g. reflexivity. Qed.
Lemma expand_closed all l : (forall a b hs g, In (MTable b hs g) all -> closed [DTable a hs g]) -> closed (map (expand all) l).
Proof.
  intros H. apply closed_items. intros d Hd. destruct d as [w fs|k fs|a hs g].
  - apply closed_para. intros (a & hs & g & E). discriminate.
  - apply closed_para. intros (a & hs & g & E). discriminate.
  - destruct (expand_in all l a hs g Hd) as (b & Hb). exact (H a b hs g Hb).
Qed.
Lemma block_closed b : forall a before hs g, block_docx b = Some (MTable before hs g) -> closed [DTable a hs g].
Proof.
  induction b as [t|before0 rows IH] using sblock_ind'; intros a before hs g E; [discriminate|]. rewrite table_docx in E.
  destruct (all_some (map (srow_docx (columns rows)) rows)) as [src|] eqn:Es; [|discriminate]. cbn [obind] in E. destruct (word_table dnewp dnoruns src) as [[hs0 g0]|] eqn:Ew; [|discriminate]. cbn [option_map fst snd] in E. injection E as _ -> ->.
  assert (A : allb ditem (fun l => ends_with_paragraph l /\ closed l) g).
  { apply (table_bodies ditem dnewp dnoruns (fun l => ends_with_paragraph l /\ closed l)) with (src := src) (hs := hs); [| |intros h ws w b Hr Hw Hf|exact Ew].
    - split; [exists [], dnewp; split; [reflexivity|intros (aa & a0 & c & F); discriminate]|apply closed_para; intros (aa & a0 & c & F); discriminate].
    - intros acc b (_ & Ca) ((l & d & -> & Hd) & Cb). split; [exists (trim dnoruns acc ++ l), d; split; [rewrite app_assoc; reflexivity|exact Hd]|].
      apply closed_items. intros x Hx. apply in_app_iff in Hx. destruct Hx as [Hx|Hx]; [apply (closed_in acc); [exact Ca|apply (trim_in dnoruns), Hx]|apply (closed_in _ x Cb Hx)].
    - destruct (rows_src _ _ _ Es h ws w Hr Hw) as (cells & c & H1 & H2 & H3). destruct (cell_cases c w H3 b Hf) as (ms & Em & ->). split; [apply cell_last|].
      unfold cell_docx. apply expand_closed. intros a0 b0 hs0 g0 Hin. apply all_some_f2 in Em. destruct c as [[info v] bs]. cbn [snd] in Em.
      assert (K : exists x, In x bs /\ block_docx x = Some (MTable b0 hs0 g0)).
      { clear - Em Hin. induction Em as [|x m bs ms E _ IHm]; [destruct Hin|]. destruct Hin as [->|Hin]; [exists x; split; [left; reflexivity|exact E]|]. destruct (IHm Hin) as (y & H & E'). exists y. split; [right; exact H|exact E']. }
      destruct K as (x & Hx & Ex). apply (IH h cells info v bs x H1 H2 Hx a0 b0 hs0 g0 Ex). }
  constructor. intros a1 hs1 g1 row t [Eq|[]] H2 H3. injection Eq as _ <- <-. unfold allb in A. rewrite Forall_forall in A. specialize (A row H2). rewrite Forall_forall in A. exact (A t H3).
Qed.

(* ------------------------------------------------------------------ *)
(** * Regular tables *)
Lemma state_bodies {X} (newp : X) nr nc r src t row x : In row (state newp nr nc r src t) -> In x row ->
  t_body x = [newp] \/ exists h cells c, In (h, cells) src /\ In c cells /\ wc_fill c = Some (t_body x).
Proof.
  unfold state, fgrid. intros H1 H2. apply in_map_iff in H1. destruct H1 as (p & <- & _). unfold pieces in H2. apply in_flat_map in H2. destruct H2 as (q & _ & H2).
  destruct (Lt nc r t p q =? q); [|destruct H2]. destruct H2 as [<-|[]]. unfold mkt. destruct (done nc r t p q); [|left; reflexivity]. destruct (p =? tp r p q); [|left; reflexivity]. cbn [t_body].
  unfold body, ce, cell_of. destruct (nth_error src (tp r p q)) as [[h cells]|] eqn:E1; [|left; reflexivity]. destruct (nth_error cells (lf r p q)) as [c|] eqn:E2; [|left; reflexivity].
  destruct (wc_fill c) as [b|] eqn:E3; [|left; reflexivity]. right. exists h, cells, c. apply nth_error_In in E1, E2. auto.
Qed.
Lemma wf_items l : (forall a i j b, l = a ++ i :: j :: b -> ~ (is_dtable i /\ is_dtable j)) -> (forall d, In d l -> well_formed [d]) -> well_formed l.
Proof. intros H0 H. constructor; [exact H0|]. intros a hs g row t H1 H2 H3. specialize (H _ H1). inversion H as [? _ K]; subst. apply (K a hs g row t); [left; reflexivity|exact H2|exact H3]. Qed.
Lemma single_adjacent (d : ditem) a i j b : [d] = a ++ i :: j :: b -> ~ (is_dtable i /\ is_dtable j).
Proof. intros E. apply (f_equal (@List.length _)) in E. rewrite app_length in E. cbn in E. lia. Qed.
Lemma wf_para d : ~ is_dtable d -> well_formed [d].
Proof. intros H. constructor; [apply single_adjacent|]. intros a hs g row t [->|[]]. exfalso. apply H. exists a, hs, g. reflexivity. Qed.
Lemma expand_wf all l : DocxSpec.no_adjacent_tables l -> (forall a b hs g, In (MTable b hs g) all -> well_formed [DTable a hs g]) -> well_formed (map (expand all) l).
Proof.
  intros Na H. apply wf_items; [apply expand_adjacent, Na|]. intros d Hd. destruct d as [w fs|k fs|a hs g].
  - apply wf_para. intros (a & hs & g & E). discriminate.
  - apply wf_para. intros (a & hs & g & E). discriminate.
  - destruct (expand_in all l a hs g Hd) as (b & Hb). exact (H a b hs g Hb).
Qed.
Lemma block_wf b : regular b -> forall a before hs g, block_docx b = Some (MTable before hs g) -> well_formed [DTable a hs g].
Proof.
  induction 1 as [t|before0 rows nr nc r Hn Part Div Hh Reg IH]; intros a before hs g E; [discriminate|].
  destruct (rows_written nr nc r rows Hn Div) as (src & Es & Fit & R).
  { intros h cells info v bs b H1 H2 H3. destruct (block_written b (Reg h cells info v bs b H1 H2 H3)) as (m & Em & _). exists m. exact Em. }
  assert (Hh' : forall h cells, In (h, cells) src -> (0 <= h)%Q).
  { clear - R Hh. induction R as [|[h0 cells0] [h1 ws] rows src (E & _) _ IHR]; intros h cells Hin; [destruct Hin|]. cbn in E. subst h1. destruct Hin as [Hin|Hin]; [injection Hin as <- <-; apply (Hh h0 cells0); left; reflexivity|].
    apply (IHR (fun h c Hc => Hh h c (or_intror Hc)) h cells Hin). }
  rewrite table_docx, Es in E. cbn [obind] in E. rewrite (table_written dnewp dnoruns eq_refl nr nc r src Part Fit Hh' Hn) in E. cbn [option_map fst snd] in E. injection E as _ <- <-.
  constructor; [apply single_adjacent|]. intros a1 hs1 g1 row t [Eq|[]] H2 H3. injection Eq as _ <- <-.
  destruct (state_bodies _ _ _ _ _ _ _ _ H2 H3) as [Eb|(h & ws & w & Hr & Hw & Hf)].
  - rewrite Eb. split; [exists [], dnewp; split; [reflexivity|intros (aa & a0 & c & F); discriminate]|apply wf_para; intros (aa & a0 & c & F); discriminate].
  - destruct (rows_src _ _ _ Es h ws w Hr Hw) as (cells & c & A1 & A2 & A3). destruct (cell_cases c w A3 _ Hf) as (ms & Em & ->). split; [apply cell_last|].
    unfold cell_docx. apply expand_wf; [apply (DocxProps.C34_cell (number 0 ms) [] (number_defined ms 0))|].
    intros a0 b0 hs0 g0 Hin. apply all_some_f2 in Em. destruct c as [[info v] bs]. cbn [snd] in Em.
    assert (K : exists x, In x bs /\ block_docx x = Some (MTable b0 hs0 g0)).
    { clear - Em Hin. induction Em as [|x m bs ms E _ IHm]; [destruct Hin|]. destruct Hin as [->|Hin]; [exists x; split; [left; reflexivity|exact E]|]. destruct (IHm Hin) as (y & H & E'). exists y. split; [right; exact H|exact E']. }
    destruct K as (x & Hx & Ex). apply (IH h cells info v bs x A1 A2 Hx a0 b0 hs0 g0 Ex).
Qed.

(* ------------------------------------------------------------------ *)
(** * Documents *)
Lemma pages_defined : forall l k p b, In p (number_pages k l) -> In b (DocxModel.p_blocks p) -> DocxModel.b_type b <> DocxModel.UNDEFINED.
Proof.
  induction l as [|[p0 ms] t IH]; intros k p b H1 H2; [destruct H1|]. cbn [number_pages] in H1. destruct H1 as [<-|H1]; [apply (number_defined ms k b H2)|apply (IH _ _ _ H1 H2)].
Qed.
Lemma expand_break all i : is_section_break (expand all i) = DocxSpec.is_break i.
Proof. destruct i as [[]|id]; cbn; try reflexivity; destruct (nth_error all _) as [[]|]; reflexivity. Qed.
Lemma expand_floats all i : floats_of (expand all i) = DocxSpec.images_of i.
Proof. destruct i as [[]|id]; cbn; try reflexivity; destruct (nth_error all _) as [[]|]; reflexivity. Qed.
Lemma expand_sections all l : forall cur, dsections (map (expand all) cur) (map (expand all) l) = map (map (expand all)) (DocxSpec.sections_of cur l).
Proof.
  induction l as [|i t IH]; intros cur; [reflexivity|]. cbn [map dsections DocxSpec.sections_of]. rewrite expand_break. destruct (DocxSpec.is_break i).
  - cbn [map]. rewrite map_app. f_equal. apply (IH []).
  - specialize (IH (cur ++ [i])). rewrite map_app in IH. exact IH.
Qed.
Lemma document_inv tpl ps out : document_docx tpl ps = Some out -> exists mss,
  Forall2 (fun p ms => Forall2 (fun b m => block_docx b = Some m) (sp_blocks p) ms) ps mss /\
  out = (DocxModel.d_sections (DocxModel.make_pages tpl (number_pages 0 (combine ps mss))), map (expand (concat mss)) (DocxModel.d_body (DocxModel.make_pages tpl (number_pages 0 (combine ps mss))))).
Proof.
  unfold document_docx. intros E. match type of E with option_map _ ?x = _ => destruct x as [mss|] eqn:Em end; cbn [option_map] in E; [|discriminate E]. injection E as <-.
  exists mss. split; [|reflexivity]. apply all_some_f2 in Em. revert Em. clear. intros Em. induction Em as [|p ms ps mss E _ IH]; constructor; [apply all_some_f2, E|exact IH].
Qed.
Lemma made_in ps mss b0 hs g : Forall2 (fun p ms => Forall2 (fun b m => block_docx b = Some m) (sp_blocks p) ms) ps mss -> In (MTable b0 hs g) (concat mss) ->
  exists p b, In p ps /\ In b (sp_blocks p) /\ block_docx b = Some (MTable b0 hs g).
Proof.
  intros F H. induction F as [|p ms ps mss Fb _ IH]; [destruct H|]. cbn [concat] in H. apply in_app_iff in H. destruct H as [H|H].
  - exists p. assert (K : exists x, In x (sp_blocks p) /\ block_docx x = Some (MTable b0 hs g)).
    { clear - Fb H. induction Fb as [|x m bs ms E _ IHm]; [destruct H|]. destruct H as [->|Hin]; [exists x; split; [left; reflexivity|exact E]|]. destruct (IHm Hin) as (y & Hy & E'). exists y. split; [right; exact Hy|exact E']. }
    destruct K as (x & Hx & Ex). exists x. split; [left; reflexivity|]. split; [exact Hx|exact Ex].
  - destruct (IH H) as (p' & b & Hp & Hb & E). exists p', b. split; [right; exact Hp|]. split; [exact Hb|exact E].
Qed.
Lemma document_closed tpl ps secs body : document_docx tpl ps = Some (secs, body) -> closed body.
Proof.
  intros E. destruct (document_inv tpl ps _ E) as (mss & F & Eo). injection Eo as _ ->. apply expand_closed. intros a b hs g H. destruct (made_in ps mss b hs g F H) as (p & b0 & _ & _ & Eb). apply (block_closed b0 a b hs g Eb).
Qed.
Lemma pages_text : forall ps mss pre all contents, Forall2 (fun p ms => Forall2 (fun b m => block_docx b = Some m) (sp_blocks p) ms) ps mss ->
  (forall p b m, In p ps -> In b (sp_blocks p) -> block_docx b = Some m -> made_text m = sblock_text b) -> all = pre ++ concat mss ->
  Forall2 (fun content p => flat_map DocxSpec.shows content = DocxSpec.should_show (DocxModel.p_blocks p)) contents (number_pages (List.length pre) (combine ps mss)) ->
  Forall2 (fun content p => flat_map ditem_text content = flat_map sblock_text (sp_blocks p)) (map (map (expand all)) contents) ps.
Proof.
  induction ps as [|p ps IH]; intros mss pre all contents F T Ea C; inversion F as [|? ms ? mss' F1 F2]; subst.
  - cbn in C. inversion C; subst. constructor.
  - cbn [combine number_pages] in C. inversion C as [|content ? contents' ? C1 C2]; subst. cbn [map]. constructor.
    + rewrite expand_text, C1. cbn [DocxModel.p_blocks]. rewrite (named_number _ pre ms (concat mss') (eq_refl : pre ++ concat (ms :: mss') = pre ++ ms ++ concat mss')).
      clear - F1 T. specialize (T p). assert (T' : forall b m, In b (sp_blocks p) -> block_docx b = Some m -> made_text m = sblock_text b) by (intros b m Hb; apply T; [left; reflexivity|exact Hb]). clear T. induction F1 as [|b m bs ms E _ IHb]; [reflexivity|]. cbn [flat_map]. rewrite (T' b m (or_introl eq_refl) E), IHb; [reflexivity|]. intros b0 m0 Hb. apply T'. right. exact Hb.
    + apply (IH mss' (pre ++ ms)); [exact F2|intros q b m Hq; apply T; right; exact Hq|cbn [concat]; rewrite app_assoc; reflexivity|]. rewrite app_length. exact C2.
Qed.
Lemma pages_sections : forall l k, map DocxModel.p_section (number_pages k l) = map (fun x => sp_section (fst x)) l /\ map DocxModel.p_floats (number_pages k l) = map (fun x => sp_floats (fst x)) l.
Proof. induction l as [|[p ms] t IH]; intros k; [split; reflexivity|]. cbn. destruct (IH (k + List.length ms)) as (A & B). rewrite A, B. split; reflexivity. Qed.
Lemma combine_fst {A B} (P : A -> B -> Prop) l l' : Forall2 P l l' -> map fst (combine l l') = l.
Proof. induction 1; [reflexivity|]. cbn. rewrite IHForall2. reflexivity. Qed.
Lemma document_written tpl ps : ps <> [] -> (forall p b, In p ps -> In b (sp_blocks p) -> regular b) ->
  exists body, document_docx tpl ps = Some (map sp_section ps, body) /\ well_formed body /\ (forall l d, body = l ++ [d] -> ~ is_dtable d) /\
    Forall2 (fun content p => flat_map ditem_text content = flat_map sblock_text (sp_blocks p)) (dsections [] body) ps /\
    flat_map floats_of body = flat_map sp_floats ps.
Proof.
  intros Hne Reg.
  destruct (all_some_map (fun p => all_some (map block_docx (sp_blocks p))) ps) as (mss & Em).
  { intros p Hp. destruct (all_some_map block_docx (sp_blocks p)) as (ms & E); [intros b Hb; destruct (block_written b (Reg p b Hp Hb)) as (m & E & _); exists m; exact E|exists ms; exact E]. }
  assert (E : exists out, document_docx tpl ps = Some out) by (unfold document_docx; match goal with |- exists out, option_map _ ?x = _ => replace x with (Some mss) by (symmetry; exact Em) end; eexists; reflexivity). destruct E as (out & E).
  destruct (document_inv tpl ps out E) as (mss' & F & Eo). clear mss Em. rename mss' into mss.
  set (pages := number_pages 0 (combine ps mss)) in *.
  assert (Def : forall p b, In p pages -> In b (DocxModel.p_blocks p) -> DocxModel.b_type b <> DocxModel.UNDEFINED) by (intros p b; apply pages_defined).
  assert (Fst : map fst (combine ps mss) = ps) by (apply (combine_fst _ _ _ F)).
  assert (Hp : pages <> []). { unfold pages. clear - Hne F. destruct F as [|p ms ps mss F1 F2]; [contradiction|]. cbn [combine number_pages]. congruence. }
  destruct (DocxProps.C34_document tpl pages Hp Def) as (Na & Ne & Sh). pose proof (proj1 (DocxProps.C46_one_section_per_page tpl pages Hp Def)) as Sec. pose proof (DocxProps.C47_images_conserved tpl pages Def) as Im.
  destruct (pages_sections (combine ps mss) 0) as (S1 & S2). fold pages in S1, S2.
  assert (Es : DocxModel.d_sections (DocxModel.make_pages tpl pages) = map sp_section ps).
  { rewrite Sec, S1, <- (map_map fst sp_section), Fst. reflexivity. }
  rewrite Es in Eo. exists (map (expand (concat mss)) (DocxModel.d_body (DocxModel.make_pages tpl pages))). split; [rewrite E, Eo; reflexivity|]. split.
  { apply expand_wf; [exact Na|]. intros a b hs g H. destruct (made_in ps mss b hs g F H) as (p & b0 & H1 & H2 & Eb). apply (block_wf b0 (Reg p b0 H1 H2) a b hs g Eb). }
  split.
  { intros l d El Hd. apply map_eq_app in El. destruct El as (l1 & l2 & El & <- & E2). destruct l2 as [|i [|j l2]]; try discriminate. cbn in E2. injection E2 as <-. apply Ne. destruct (expand_table _ _ Hd) as (id & ->). exists l1, id. exact El. }
  split.
  { change (@nil ditem) with (map (expand (concat mss)) []). rewrite expand_sections.
    apply (pages_text ps mss [] (concat mss)); [exact F| |reflexivity|exact Sh]. intros p b m Hp0 Hb Eb. destruct (block_written b (Reg p b Hp0 Hb)) as (m' & E' & T). rewrite Eb in E'. injection E' as <-. exact T. }
  assert (Fl : flat_map floats_of (map (expand (concat mss)) (DocxModel.d_body (DocxModel.make_pages tpl pages))) = flat_map DocxSpec.images_of (DocxModel.d_body (DocxModel.make_pages tpl pages))).
  { clear. induction (DocxModel.d_body (DocxModel.make_pages tpl pages)) as [|i t IH]; [reflexivity|]. cbn [map flat_map]. rewrite expand_floats, IH. reflexivity. }
  rewrite Fl, Im. rewrite !flat_map_concat_map, S2, <- (map_map fst sp_floats), Fst. reflexivity.
Qed.
