(** Lemmas about the document tree. *)
From Verif Require Import TreeSpec ParaSpec ParaProof ParaProps WordProof WordProof2 WordProof3 WordProps.
From Verif Require DocxModel DocxSpec DocxProof DocxProps.
From Coq Require Import Lia Lqa.
Open Scope nat_scope.

Lemma all_some_map {A B} (f : A -> option B) l : (forall a, In a l -> exists b, f a = Some b) -> exists ms, all_some (map f l) = Some ms.
Proof.
  induction l as [|a t IH]; intros H; [exists []; reflexivity|]. destruct (H a (or_introl eq_refl)) as (b & E). destruct IH as (ms & E2); [intros x Hx; apply H; right; exact Hx|].
  exists (b :: ms). cbn. rewrite E. cbn. rewrite E2. reflexivity.
Qed.
Lemma all_some_spec {A} (l : list (option A)) ms : all_some l = Some ms -> l = map Some ms.
Proof.
  revert ms. induction l as [|x t IH]; intros ms E; cbn in E; [injection E as <-; reflexivity|].
  destruct x as [a|]; [|discriminate]. cbn in E. destruct (all_some t) as [r|] eqn:Er; [|discriminate]. cbn in E. injection E as <-. cbn. rewrite (IH r eq_refl). reflexivity.
Qed.
Lemma all_some_back {A} (ms : list A) : all_some (map Some ms) = Some ms.
Proof. induction ms as [|a t IH]; [reflexivity|]. cbn. rewrite IH. reflexivity. Qed.
Lemma all_some_f2 {A B} (f : A -> option B) l ms : all_some (map f l) = Some ms -> Forall2 (fun a b => f a = Some b) l ms.
Proof.
  intros E. apply all_some_spec in E. revert ms E. induction l as [|a t IH]; intros [|b ms] E; try discriminate; [constructor|]. cbn in E. injection E as E1 E2. constructor; auto.
Qed.

(** A paragraph holds the spans of its lines. *)
Lemma item_app a b : item_spans (a ++ b) = item_spans a ++ item_spans b.
Proof. unfold item_spans. apply flat_map_app. Qed.
Lemma write_spans h bb p : forall ls cur bs, item_spans (write_lines h bb p cur ls bs) = flat_map ln_spans ls.
Proof.
  induction ls as [|l ls IH]; intros cur bs; [reflexivity|]. cbn [write_lines flat_map]. rewrite !item_app, IH.
  assert (T : forall n, item_spans (repeat ITab n) = []) by (induction n; auto).
  assert (S : forall ss, item_spans (map ISpan ss) = ss) by (induction ss as [|s ss IHs]; [reflexivity|cbn; f_equal; exact IHs]).
  rewrite S. destruct (qlt _ _ && _); [rewrite T|]; destruct bs as [|[] bs]; reflexivity.
Qed.

(* ------------------------------------------------------------------ *)
(** * Numbered blocks *)
Lemma number_defined ms : forall k b, In b (number k ms) -> DocxModel.b_type b <> DocxModel.UNDEFINED.
Proof. induction ms as [|m t IH]; intros k b H; [destruct H|]. cbn [number] in H. destruct H as [<-|H]; [destruct m; discriminate|eapply IH, H]. Qed.
Definition made_text (m : made) : list (glyph * list style) :=
  match m with MText w => styled (item_spans (wp_items w)) | MTable b hs g => ditem_text (DTable (20 * tp_left b)%Q hs g) end.
(** The text shown for a block named [id]. *)
Definition named (all : list made) (x : nat * bool) : list (glyph * list style) :=
  match nth_error all (fst x) with
  | Some (MText w) => if snd x then [] else made_text (MText w)
  | Some m => if snd x then made_text m else []
  | None => []
  end.
Lemma expand_shows all i : ditem_text (expand all i) = flat_map (named all) (DocxSpec.shows i).
Proof.
  destruct i as [k fs|id].
  - destruct k; try reflexivity. cbn [DocxSpec.shows flat_map]. rewrite app_nil_r. unfold named. cbn [fst snd expand]. destruct (nth_error all id) as [[w|b hs g]|]; reflexivity.
  - cbn [DocxSpec.shows flat_map]. rewrite app_nil_r. unfold named. cbn [fst snd expand]. destruct (nth_error all id) as [[w|b hs g]|]; reflexivity.
Qed.
Lemma expand_text all l : flat_map ditem_text (map (expand all) l) = flat_map (named all) (flat_map DocxSpec.shows l).
Proof. induction l as [|i t IH]; [reflexivity|]. cbn [map flat_map]. rewrite flat_map_app, expand_shows, IH. reflexivity. Qed.
Lemma named_number all pre ms post : all = pre ++ ms ++ post ->
  flat_map (named all) (DocxSpec.should_show (number (List.length pre) ms)) = flat_map made_text ms.
Proof.
  revert pre. induction ms as [|m t IH]; intros pre E; [reflexivity|].
  cbn [number]. unfold DocxSpec.should_show. cbn [filter].
  assert (N : nth_error all (List.length pre) = Some m) by (rewrite E, nth_error_app2, Nat.sub_diag by lia; reflexivity).
  specialize (IH (pre ++ [m])). rewrite app_length, Nat.add_1_r in IH. unfold DocxSpec.should_show in IH.
  destruct m as [w|b hs g]; cbn [made_type DocxModel.is_text_image DocxModel.is_table DocxModel.b_type orb map flat_map DocxModel.b_id]; unfold named at 1; cbn [fst snd]; rewrite N; f_equal; apply IH; rewrite E, <- app_assoc; reflexivity.
Qed.
Lemma cell_text ms : flat_map ditem_text (cell_docx ms) = flat_map made_text ms.
Proof.
  unfold cell_docx. rewrite expand_text. destruct (DocxProps.C34_cell (number 0 ms) [] (number_defined ms 0)) as (E & _). rewrite E.
  apply (named_number ms [] ms []). rewrite app_nil_r. reflexivity.
Qed.
Lemma expand_table all i : is_dtable (expand all i) -> DocxSpec.is_tab i.
Proof.
  intros (a & hs & g & E). destruct i as [k fs|id]; [|exists id; reflexivity]. destruct k; try discriminate E. cbn [expand] in E. destruct (nth_error all id) as [[w|b0 hs0 g0]|]; discriminate E.
Qed.
Lemma expand_adjacent all l : DocxSpec.no_adjacent_tables l -> forall a i j b, map (expand all) l = a ++ i :: j :: b -> ~ (is_dtable i /\ is_dtable j).
Proof.
  intros H a i j b E (Hi & Hj). apply map_eq_app in E. destruct E as (l1 & l2 & -> & <- & E). destruct l2 as [|i0 [|j0 l2]]; try discriminate. cbn in E. injection E as <- <- <-.
  exact (H l1 i0 j0 l2 eq_refl (conj (expand_table _ _ Hi) (expand_table _ _ Hj))).
Qed.
(** The tables of a body are tables made. *)
Lemma expand_in all l a hs g : In (DTable a hs g) (map (expand all) l) -> exists b, In (MTable b hs g) all.
Proof.
  intros H. apply in_map_iff in H. destruct H as (i & E & _). destruct i as [k fs|id].
  - destruct k; try discriminate. cbn [expand] in E. destruct (nth_error all id) as [[w|b0 hs0 g0]|]; discriminate.
  - cbn [expand] in E. destruct (nth_error all id) as [[w|b0 hs0 g0]|] eqn:N; try discriminate. injection E as _ <- <-. exists b0. apply nth_error_In in N. exact N.
Qed.
Lemma cell_last ms : ends_with_paragraph (cell_docx ms).
Proof.
  destruct (DocxProps.C34_cell (number 0 ms) [] (number_defined ms 0)) as (_ & _ & (l & k & fs & E) & _).
  exists (map (expand ms) l), (expand ms (DocxModel.Para k fs)). unfold cell_docx. rewrite E, map_app. split; [reflexivity|].
  intros H. apply expand_table in H. destruct H as (id & H). discriminate.
Qed.

(* ------------------------------------------------------------------ *)
(** * A regular table *)
Definition scell_docx (c : scell) : option (wcell ditem) :=
  match c with
  | (None, v, _) => Some (mkW None v None)
  | (Some i, v, bs) => option_map (fun ms => mkW (Some i) v (match ms with [] => None | _ => Some (cell_docx ms) end)) (all_some (map block_docx bs))
  end.
Definition srow_docx (ncols : nat) (row : Q * list scell) : option (Q * list (wcell ditem)) :=
  option_map (pair (fst row)) (all_some (firstn ncols (map scell_docx (snd row)))).
Definition columns (rows : list (Q * list scell)) : nat := match rows with [] => 0 | (_, cells) :: _ => List.length cells end.
Lemma table_docx before rows : block_docx (STable before rows) =
  obind (all_some (map (srow_docx (columns rows)) rows)) (fun src => option_map (fun t => MTable before (fst t) (snd t)) (word_table dnewp dnoruns src)).
Proof. reflexivity. Qed.

(** What is written for the cells of a regular table. *)
Lemma rows_written nr nc r rows : 0 < nr -> divides nr nc r rows ->
  (forall h cells info v bs b, In (h, cells) rows -> In (info, v, bs) cells -> In b bs -> exists m, block_docx b = Some m) ->
  exists src, all_some (map (srow_docx (columns rows)) rows) = Some src /\ fits_regions nr nc r src /\
    Forall2 (fun row row' : Q * _ => fst row' = fst row /\ Forall2 (fun c w => scell_docx c = Some w) (snd row) (snd row')) rows src.
Proof.
  intros Hn (Hl & D) M.
  assert (Nc : columns rows = nc).
  { destruct rows as [|[h cells] t]; [cbn in Hl; lia|]. apply (D 0 h cells eq_refl). }
  rewrite Nc.
  assert (F : forall i row, nth_error rows i = Some row -> srow_docx nc row = option_map (pair (fst row)) (all_some (map scell_docx (snd row)))).
  { intros i [h cells] E. unfold srow_docx. cbn [fst snd]. rewrite firstn_all2; [reflexivity|]. rewrite map_length. rewrite (proj1 (D i h cells E)). lia. }
  assert (C : forall h cells c, In (h, cells) rows -> In c cells -> exists w, scell_docx c = Some w).
  { intros h cells [[info v] bs] H1 H2. cbn. destruct info as [b|]; [|eexists; reflexivity]. destruct (all_some_map block_docx bs) as (ms & E); [intros x Hx; eapply M; eauto|]. rewrite E. eexists. reflexivity. }
  destruct (all_some_map (srow_docx nc) rows) as (src & E).
  { intros row Hr. destruct (In_nth_error _ _ Hr) as (i & Ei). rewrite (F i row Ei). destruct row as [h cells]. destruct (all_some_map scell_docx cells) as (ws & Ew); [intros c Hc; eapply C; eauto|]. cbn [fst snd]. rewrite Ew. eexists. reflexivity. }
  exists src. split; [exact E|]. pose proof (all_some_f2 _ _ _ E) as F2.
  assert (R : Forall2 (fun row row' : Q * _ => fst row' = fst row /\ Forall2 (fun c w => scell_docx c = Some w) (snd row) (snd row')) rows src).
  { assert (K : forall i, i < List.length rows -> i < List.length rows) by auto. clear K. assert (F' : forall row, In row rows -> srow_docx nc row = option_map (pair (fst row)) (all_some (map scell_docx (snd row)))) by (intros row Hr; destruct (In_nth_error _ _ Hr) as (i & Ei); exact (F i row Ei)).
    clear - F2 F'. induction F2 as [|row row' rows src H _ IH]; constructor.
    - rewrite (F' row (or_introl eq_refl)) in H. destruct (all_some (map scell_docx (snd row))) as [ws|] eqn:Ew; [|discriminate]. injection H as <-. cbn [fst snd]. split; [reflexivity|]. apply all_some_f2, Ew.
    - apply IH. intros x Hx. apply F'. right. exact Hx. }
  split; [|exact R].
  assert (Len : forall A B (P : A -> B -> Prop) l l', Forall2 P l l' -> List.length l' = List.length l) by (induction 1; cbn; lia).
  assert (Nth : forall A B (P : A -> B -> Prop) l l', Forall2 P l l' -> forall i b, nth_error l' i = Some b -> exists a, nth_error l i = Some a /\ P a b).
  { induction 1 as [|a b l l' H _ IH]; intros i b0 E0; [destruct i; discriminate|]. destruct i; [injection E0 as <-; exists a; split; [reflexivity|exact H]|apply (IH i b0 E0)]. }
  split; [rewrite (Len _ _ _ _ _ R); exact Hl|]. intros i h ws Ei.
  destruct (Nth _ _ _ _ _ R i (h, ws) Ei) as ([h0 cells] & E0 & E1 & E2). cbn [fst snd] in E1, E2. subst h0.
  destruct (D i h cells E0) as (Dl & Dc). split; [rewrite (Len _ _ _ _ _ E2); exact Dl|]. intros j w Ew.
  destruct (Nth _ _ _ _ _ E2 j w Ew) as ([[info v] bs] & Ec & Es). specialize (Dc j info v bs Ec). cbn in Es. destruct info as [b|].
  - destruct (all_some (map block_docx bs)); [|discriminate]. injection Es as <-. exact Dc.
  - injection Es as <-. cbn. destruct Dc as (D1 & D2 & _). auto.
Qed.

(** Text of the cells written. *)
Lemma fill_text (c : scell) w : scell_docx c = Some w -> (forall b m, In b (snd c) -> block_docx b = Some m -> made_text m = sblock_text b) -> (fst (fst c) = None -> snd c = []) ->
  (match wc_fill w with Some items => flat_map ditem_text items | None => [] end) = flat_map sblock_text (snd c).
Proof.
  destruct c as [[info v] bs]. cbn [fst snd]. intros E H Hn. cbn in E. destruct info as [i|]; [|injection E as <-; rewrite Hn by reflexivity; reflexivity].
  destruct (all_some (map block_docx bs)) as [ms|] eqn:Ems; [|discriminate]. injection E as <-. cbn [wc_fill]. pose proof (all_some_f2 _ _ _ Ems) as F2.
  assert (T : flat_map made_text ms = flat_map sblock_text bs).
  { clear - F2 H. induction F2 as [|b m bs ms E _ IH]; [reflexivity|]. cbn [flat_map]. rewrite (H b m (or_introl eq_refl) E), IH; [reflexivity|]. intros b0 m0 H0. apply H. right. exact H0. }
  rewrite <- T. destruct ms as [|m ms]; [reflexivity|]. apply cell_text.
Qed.

(** Regular blocks are written, with their text. *)
Lemma block_written b : regular b -> exists m, block_docx b = Some m /\ made_text m = sblock_text b.
Proof.
  induction 1 as [t|before rows nr nc r Hn Part Div Hh _ IH].
  - eexists. split; [reflexivity|]. cbn [made_text sblock_text]. unfold text_docx, make_paragraph. cbn [wp_items]. rewrite write_spans. unfold line_glyphs.
    clear. induction (st_lines t) as [|l ls IHl]; [reflexivity|]. cbn [flat_map]. unfold styled in *. rewrite flat_map_app, IHl. reflexivity.
  - destruct (rows_written nr nc r rows Hn Div) as (src & Es & Fit & R).
    { intros h cells info v bs b H1 H2 H3. destruct (IH h cells info v bs b H1 H2 H3) as (m & E & _). exists m. exact E. }
    assert (Hh' : forall h cells, In (h, cells) src -> (0 <= h)%Q).
    { clear - R Hh. induction R as [|[h0 cells0] [h1 ws] rows src (E & _) _ IHR]; intros h cells Hin; [destruct Hin|]. cbn in E. subst h1. destruct Hin as [Hin|Hin]; [injection Hin as <- <-; apply (Hh h0 cells0); left; reflexivity|].
      apply (IHR (fun h c Hc => Hh h c (or_intror Hc)) h cells Hin). }
    destruct (C69_regions ditem dnewp dnoruns nr nc r src eq_refl Hn Part Fit Hh') as (g & Eg & _).
    rewrite table_docx, Es. cbn [obind]. rewrite Eg. cbn [option_map]. eexists. split; [reflexivity|]. cbn [made_text fst snd ditem_text sblock_text].
    rewrite (C69_contents ditem _ dnewp dnoruns ditem_text nr nc r src _ g eq_refl eq_refl Hn Part Fit Hh' Eg).
    assert (IH' : forall h cells info v bs, In (h, cells) rows -> In (info, v, bs) cells -> forall b m, In b bs -> block_docx b = Some m -> made_text m = sblock_text b).
    { intros h cells info v bs H1 H2 b m H3 E. destruct (IH h cells info v bs b H1 H2 H3) as (m' & E' & T). rewrite E in E'. injection E' as <-. exact T. }
    assert (None' : forall h cells info v bs, In (h, cells) rows -> In (info, v, bs) cells -> info = None -> bs = []).
    { intros h cells info v bs H1 H2 ->. destruct (In_nth_error _ _ H1) as (i & Ei). destruct (In_nth_error _ _ H2) as (j & Ej). destruct Div as (_ & D). apply (proj2 (D i h cells Ei) j None v bs Ej). }
    clear - R IH' None'. induction R as [|[h cells] [h' ws] rows src (E & F2) _ IHR]; [reflexivity|]. cbn [flat_map]. f_equal.
    + cbn [fst snd] in *. specialize (IH' h cells). specialize (None' h cells). clear - F2 IH' None'. induction F2 as [|c w cells ws E _ IHF]; [reflexivity|]. cbn [flat_map]. f_equal.
      * apply fill_text; [exact E| |]; destruct c as [[info v] bs]; cbn [fst snd]; [intros b m Hb; apply (IH' info v bs (or_introl eq_refl) (or_introl eq_refl)); exact Hb|apply (None' info v bs (or_introl eq_refl) (or_introl eq_refl))].
      * apply IHF; intros info v bs H1 H2; [apply (IH' info v bs (or_introl eq_refl) (or_intror H2))|apply (None' info v bs (or_introl eq_refl) (or_intror H2))].
    + apply IHR; intros h0 cells0 info v bs H1 H2; [apply (IH' h0 cells0 info v bs (or_intror H1) H2)|apply (None' h0 cells0 info v bs (or_intror H1) H2)].
Qed.
