(** What a document shows of the parsed blocks. *)
From Verif Require Import TreeSpec ParaSpec WordProps TreeProof TreeProof2 TreeProof3 TreeProof4 TreeProof5.
From Verif Require DocxModel DocxSpec DocxProof DocxProps.
From Coq Require Import Lia.
Open Scope nat_scope.

Definition item_of (m : made) (d : ditem) : Prop :=
  match m, d with MText w, DText w' _ => w = w' | MTable b hs g, DTable a hs' g' => (20 * tp_left b)%Q = a /\ hs = hs' /\ g = g' | _, _ => False end.
Definition essence (d : ditem) : list (wordp + Q * list Z * list (list (tc ditem))) := match d with DText w _ => [inl w] | DTable a hs g => [inr (a, hs, g)] | DOther _ _ => [] end.
Definition made_essence (m : made) : wordp + Q * list Z * list (list (tc ditem)) := match m with MText w => inl w | MTable b hs g => inr ((20 * tp_left b)%Q, hs, g) end.
Definition ness (all : list made) (x : nat * bool) : list (wordp + Q * list Z * list (list (tc ditem))) :=
  match nth_error all (fst x) with Some (MText w) => if snd x then [] else [inl w] | Some (MTable b hs g) => if snd x then [inr ((20 * tp_left b)%Q, hs, g)] else [] | None => [] end.
Lemma expand_ess all i : essence (expand all i) = flat_map (ness all) (DocxSpec.shows i).
Proof.
  destruct i as [k fs|id].
  - destruct k; try reflexivity. cbn [DocxSpec.shows flat_map]. rewrite app_nil_r. unfold ness. cbn [fst snd expand]. destruct (nth_error all id) as [[w|b hs g]|]; reflexivity.
  - cbn [DocxSpec.shows flat_map]. rewrite app_nil_r. unfold ness. cbn [fst snd expand]. destruct (nth_error all id) as [[w|b hs g]|]; reflexivity.
Qed.
Lemma expand_esss all l : flat_map essence (map (expand all) l) = flat_map (ness all) (flat_map DocxSpec.shows l).
Proof. induction l as [|i t IH]; [reflexivity|]. cbn [map flat_map]. rewrite flat_map_app, expand_ess, IH. reflexivity. Qed.
Lemma ness_number all pre ms post : all = pre ++ ms ++ post ->
  flat_map (ness all) (DocxSpec.should_show (number (List.length pre) ms)) = map made_essence ms.
Proof.
  revert pre. induction ms as [|m t IH]; intros pre E; [reflexivity|].
  cbn [number]. unfold DocxSpec.should_show. cbn [filter].
  assert (N : nth_error all (List.length pre) = Some m) by (rewrite E, nth_error_app2, Nat.sub_diag by lia; reflexivity).
  specialize (IH (pre ++ [m])). rewrite app_length, Nat.add_1_r in IH. unfold DocxSpec.should_show in IH.
  assert (E' : all = (pre ++ [m]) ++ t ++ post) by (rewrite E, <- app_assoc; reflexivity). specialize (IH E').
  destruct m as [w|b hs g]; cbn [made_type DocxModel.is_text_image DocxModel.is_table DocxModel.b_type orb map flat_map DocxModel.b_id]; unfold ness at 1; cbn [fst snd]; rewrite N; cbn [app]; f_equal; exact IH.
Qed.
Lemma essence_items l : forall ms, flat_map essence l = map made_essence ms -> Forall2 item_of ms (filter visible l).
Proof.
  induction l as [|d l IH]; intros ms E; [destruct ms; [constructor|discriminate E]|]. destruct d as [w fs|k fs|a hs g]; cbn [flat_map essence app filter visible] in *.
  - destruct ms as [|[w'|b hs g] ms]; cbn [map made_essence] in E; try discriminate E. injection E as E1 E. constructor; [symmetry; exact E1|apply IH, E].
  - apply IH, E.
  - destruct ms as [|[w'|b hs' g'] ms]; cbn [map made_essence] in E; try discriminate E. injection E as E0 E1 E2 E. constructor; [split; [|split]; symmetry; assumption|apply IH, E].
Qed.
Lemma cell_items ms : Forall2 item_of ms (filter visible (cell_docx ms)).
Proof.
  apply essence_items. unfold cell_docx. rewrite expand_esss. destruct (DocxProps.C34_cell (number 0 ms) [] (number_defined ms 0)) as (E & _). rewrite E.
  apply (ness_number ms [] ms []). rewrite app_nil_r. reflexivity.
Qed.
Lemma text_shown t : styled (item_spans (wp_items (text_docx t))) = line_glyphs (st_lines t).
Proof.
  unfold text_docx, make_paragraph. cbn [wp_items]. rewrite write_spans. unfold line_glyphs.
  induction (st_lines t) as [|l ls IHl]; [reflexivity|]. cbn [flat_map]. unfold styled in *. rewrite flat_map_app, IHl. reflexivity.
Qed.
Lemma block_displayed b : regular b -> forall m d, block_docx b = Some m -> item_of m d -> displays b d.
Proof.
  induction 1 as [t|before rows nr nc r Hn Part Div Hh Reg IH]; intros m d E I.
  - cbn in E. injection E as <-. destruct d as [w fs| |]; cbn [item_of] in I; try contradiction. subst w. constructor; [reflexivity|apply text_shown].
  - assert (All : forall r', TableSpec.partition nr nc r' -> divides nr nc r' rows -> exists src g, word_table dnewp dnoruns src = Some (map (fun x => pt (fst x)) src, g) /\ m = MTable before (map (fun x => pt (fst x)) src) g /\ List.length g = nr /\
      (forall p q, p < nr -> q < nc -> shown_at g p q = Some (reg_top (r' p q), reg_left (r' p q))) /\ fits_regions nr nc r' src /\ (forall h cells, In (h, cells) src -> (0 <= h)%Q) /\
      Forall2 (fun row row' : Q * _ => fst row' = fst row /\ Forall2 (fun c w => scell_docx c = Some w) (snd row) (snd row')) rows src).
    { intros r' Part' Div'. destruct (rows_written nr nc r' rows Hn Div') as (src & Es & Fit & R).
      { intros h cells info v bs b H1 H2 H3. destruct (block_written b (Reg h cells info v bs b H1 H2 H3)) as (m' & E' & _). exists m'. exact E'. }
      assert (Hh' : forall h cells, In (h, cells) src -> (0 <= h)%Q).
      { clear - R Hh. induction R as [|[h0 cells0] [h1 ws] rows src (E & _) _ IHR]; intros h cells Hin; [destruct Hin|]. cbn in E. subst h1. destruct Hin as [Hin|Hin]; [injection Hin as <- <-; apply (Hh h0 cells0); left; reflexivity|].
        apply (IHR (fun h c Hc => Hh h c (or_intror Hc)) h cells Hin). }
      destruct (C69_regions ditem dnewp dnoruns nr nc r' src eq_refl Hn Part' Fit Hh') as (g & Eg & Lg & Sg).
      rewrite table_docx, Es in E. cbn [obind] in E. rewrite Eg in E. cbn [option_map fst snd] in E. injection E as <-. exists src, g. split; [exact Eg|]. split; [reflexivity|]. split; [exact Lg|]. split; [exact Sg|]. split; [exact Fit|]. split; [exact Hh'|exact R]. }
    destruct (All r Part Div) as (src0 & g & _ & -> & Lg & _ & _ & _ & R0). destruct d as [| |a' hs' g']; cbn [item_of] in I; try contradiction. destruct I as (<- & <- & <-).
    assert (Ehs : forall src, Forall2 (fun row row' : Q * _ => fst row' = fst row /\ Forall2 (fun c w => scell_docx c = Some w) (snd row) (snd row')) rows src -> map (fun x : Q * list (wcell ditem) => pt (fst x)) src = map (fun row : Q * list scell => pt (fst row)) rows).
    { clear. intros src R. induction R as [|a b rows src (E & _) _ IHR]; [reflexivity|]. cbn [map]. rewrite E, IHR. reflexivity. }
    rewrite (Ehs src0 R0). apply (displays_table before rows nr nc g); [exists r; split; assumption|exact Lg|]. clear Part Div. intros r' p q i j k n Part Div Hp Hq Er.
    destruct (All r' Part Div) as (src & g2 & Eg & Em & _ & Sg & Fit & Hh' & R). injection Em as _ <-. clear All. split; [rewrite (Sg p q Hp Hq), Er; reflexivity|].
    assert (Own : i < nr /\ j < nc /\ r' i j = (i, j, k, n)).
    { destruct (Part p q Hp Hq) as (In_ & Pc). rewrite Er in In_, Pc. apply (Pc i j). cbn [in_region] in In_ |- *. lia. } destruct Own as (Hi & Hj & Er').
    destruct (C69_cells ditem dnewp dnoruns nr nc r' src _ g eq_refl Hn Part Fit Hh' Eg i j i j k n Hi Hj Er') as (b & c & t & Ec & Ib & Ov & Sp & De & Rest). rewrite Nat.eqb_refl in Rest. destruct Rest as (_ & Bd & Sh & Ve & Wi & _).
    unfold cell_of in Ec. destruct (nth_error src i) as [[h ws]|] eqn:Ei; [|discriminate Ec].
    assert (Nth : forall A B (P : A -> B -> Prop) l l', Forall2 P l l' -> forall i b, nth_error l' i = Some b -> exists a, nth_error l i = Some a /\ P a b).
    { clear. induction 1 as [|a b l l' H _ IH]; intros i b0 E0; [destruct i; discriminate|]. destruct i; [injection E0 as <-; exists a; split; [reflexivity|exact H]|apply (IH i b0 E0)]. }
    destruct (Nth _ _ _ _ _ R i _ Ei) as ([h0 cells] & E0 & E1 & F2). cbn [fst snd] in E1, F2. destruct (Nth _ _ _ _ _ F2 j _ Ec) as ([[info v] bs] & Ej & Esc).
    cbn [scell_docx] in Esc. destruct info as [b'|]; [|injection Esc as <-; discriminate Ib].
    match type of Esc with option_map _ ?x = _ => destruct x as [ms|] eqn:Ems end; [|discriminate Esc]. injection Esc as <-. cbn [wc_info] in Ib. injection Ib as ->. cbn [wc_fill wc_vert] in Bd, Ve.
    exists h0, cells, b, v, bs, t. split; [exact E0|]. split; [exact Ej|]. split; [exact Ov|]. split; [exact Sp|]. split; [exact De|]. split; [exact Sh|]. split; [exact Ve|]. split; [exact Wi|].
    pose proof (all_some_f2 _ _ _ Ems) as Fb. assert (Items : Forall2 item_of ms (filter visible (t_body t))).
    { rewrite Bd. destruct ms as [|m0 ms]; [constructor|]. apply (cell_items (m0 :: ms)). }
    apply nth_error_In in E0. apply nth_error_In in Ej. assert (IHb : forall x, In x bs -> forall m d, block_docx x = Some m -> item_of m d -> displays x d) by (intros x Hx; apply (IH h0 cells (Some b) v bs x E0 Ej Hx)).
    clear - Fb Items IHb. revert Items. generalize (filter visible (t_body t)). induction Fb as [|x m0 bs ms E _ IH2]; intros ds Items; inversion Items as [|? d0 ? ds' I1 I2]; subst; constructor; [apply (IHb x (or_introl eq_refl) m0 d0 E I1)|apply IH2; [intros y Hy; apply IHb; right; exact Hy|exact I2]].
Qed.
Lemma pages_displayed : forall ps mss pre all contents, Forall2 (fun p ms => Forall2 (fun b m => block_docx b = Some m) (sp_blocks p) ms) ps mss ->
  (forall p b, In p ps -> In b (sp_blocks p) -> regular b) -> all = pre ++ concat mss ->
  Forall2 (fun content p => flat_map DocxSpec.shows content = DocxSpec.should_show (DocxModel.p_blocks p)) contents (number_pages (List.length pre) (combine ps mss)) ->
  Forall2 (fun content p => Forall2 displays (sp_blocks p) (filter visible content)) (map (map (expand all)) contents) ps.
Proof.
  induction ps as [|p ps IH]; intros mss pre all contents F Reg Ea C; inversion F as [|? ms ? mss' F1 F2]; subst.
  - cbn in C. inversion C; subst. constructor.
  - cbn [combine number_pages] in C. inversion C as [|content ? contents' ? C1 C2]; subst. cbn [map]. constructor.
    + assert (Items : Forall2 item_of ms (filter visible (map (expand (pre ++ concat (ms :: mss'))) content))).
      { apply essence_items. rewrite expand_esss, C1. cbn [DocxModel.p_blocks]. apply (ness_number _ pre ms (concat mss') eq_refl). }
      assert (Rp : forall b, In b (sp_blocks p) -> regular b) by (intros b; apply Reg; left; reflexivity). clear - F1 Items Rp. revert Items. generalize (filter visible (map (expand (pre ++ concat (ms :: mss'))) content)).
      induction F1 as [|b m bs ms E _ IHb]; intros ds Items; inversion Items as [|? d0 ? ds' I1 I2]; subst; constructor; [apply (block_displayed b (Rp b (or_introl eq_refl)) m d0 E I1)|apply IHb; [intros y Hy; apply Rp; right; exact Hy|exact I2]].
    + apply (IH mss' (pre ++ ms)); [exact F2|intros q b Hq; apply Reg; right; exact Hq|cbn [concat]; rewrite app_assoc; reflexivity|]. rewrite app_length. exact C2.
Qed.
Lemma document_displayed tpl ps secs body : ps <> [] -> (forall p b, In p ps -> In b (sp_blocks p) -> regular b) -> document_docx tpl ps = Some (secs, body) ->
  Forall2 (fun content p => Forall2 displays (sp_blocks p) (filter visible content)) (dsections [] body) ps.
Proof.
  intros Hne Reg E. destruct (document_inv tpl ps _ E) as (mss & F & Eo). injection Eo as _ ->.
  set (pages := number_pages 0 (combine ps mss)).
  assert (Def : forall p b, In p pages -> In b (DocxModel.p_blocks p) -> DocxModel.b_type b <> DocxModel.UNDEFINED) by (intros p b; apply pages_defined).
  assert (Hp : pages <> []). { unfold pages. clear - Hne F. destruct F as [|p ms ps mss F1 F2]; [contradiction|]. cbn [combine number_pages]. congruence. }
  destruct (DocxProps.C34_document tpl pages Hp Def) as (_ & _ & Sh).
  change (@nil ditem) with (map (expand (concat mss)) []). rewrite expand_sections. apply (pages_displayed ps mss [] (concat mss)); [exact F|exact Reg|reflexivity|exact Sh].
Qed.
