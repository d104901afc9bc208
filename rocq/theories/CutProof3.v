(** Lemmas of C81: blocks. *)
From Verif Require Import CutSpec ParaSpec TreeProof TreeProof2 TreeProof3 WordProof WordProof2 WordProof3 WordProps CutProof CutProof2.
From Verif Require DocxModel DocxSpec DocxProof DocxProps FailModel.
From Coq Require Import Lia Lqa.
Open Scope nat_scope.

Section Blocks.
Variables (names uris : nat -> list Z).
Notation su := (shows_until names).
Notation try := (block_try names uris).
Definition scell_try (c : scell) : wcell ditem * bool :=
  match c with
  | (None, v, _) => (mkW None v None, true)
  | (Some i, v, bs) => let r := until (map try bs) in (mkW (Some i) v (match bs with [] => None | _ => Some (cell_try r) end), snd r)
  end.
Definition srows_try (rows : list (Q * list scell)) : list (Q * list (wcell ditem * bool)) := map (fun row => (fst row, map scell_try (snd row))) rows.
Lemma table_tries before rows : try (STable before rows) = let '(hs, g, ok) := table_try (columns rows) (srows_try rows) in (MTable before hs g, ok).
Proof. reflexivity. Qed.

(* ---------------- the contents of a cell ---------------- *)
Lemma flow_cell_last : forall bs pre b, (forall x, In x bs -> DocxModel.is_text_image x || DocxModel.is_table x = true) -> bs <> [] \/ (exists l k fs, b = l ++ [DocxModel.Para k fs]) ->
  exists l k fs, DocxModel.make_flow DocxModel.InCell bs pre b = l ++ [DocxModel.Para k fs].
Proof.
  induction bs as [|x t IH]; intros pre b F H; cbn [DocxModel.make_flow].
  - destruct H as [H|H]; [contradiction|exact H].
  - pose proof (F x (or_introl eq_refl)) as Fx. destruct (DocxModel.is_text_image x); [|cbn [orb] in Fx; rewrite Fx].
    + apply IH; [intros y Hy; apply F; right; exact Hy|]. right. unfold DocxModel.add_paragraph. exists b, (DocxModel.PBlock (DocxModel.b_id x)), []. reflexivity.
    + apply IH; [intros y Hy; apply F; right; exact Hy|]. right. unfold DocxModel.make_table, DocxModel.add_table.
      match goal with |- exists l k fs, ?b1 ++ [?a; ?c] = _ => exists (b1 ++ [a]), DocxModel.PAuto, []; rewrite <- app_assoc; reflexivity end.
Qed.
Lemma number_flowing ms : forall k x, In x (number k ms) -> DocxModel.is_text_image x || DocxModel.is_table x = true.
Proof. induction ms as [|m t IH]; intros k x H; [destruct H|]. cbn [number] in H. destruct H as [<-|H]; [destruct m; reflexivity|exact (IH _ _ H)]. Qed.
Lemma cell_try_text r : flat_map ditem_text (cell_try r) = flat_map made_text (fst r).
Proof.
  destruct r as [ms ok]. cbn [cell_try fst]. destruct ok; [apply cell_text|]. rewrite expand_text.
  destruct (DocxProof.flow_spec DocxModel.InCell (number 0 ms) false []) as (ad & E & _ & S & _); [discriminate|]. rewrite E. cbn [app]. rewrite S.
  apply (named_number ms [] ms []). rewrite app_nil_r. reflexivity.
Qed.
Lemma cell_try_last r : (snd r = false -> fst r <> []) -> ends_with_paragraph (cell_try r).
Proof.
  destruct r as [ms ok]. cbn [cell_try fst snd]. intros N. destruct ok; [apply cell_last|].
  destruct (flow_cell_last (number 0 ms) false [] (number_flowing ms 0)) as (l & k & fs & E).
  { left. destruct ms as [|m t]; [exfalso; apply (N eq_refl); reflexivity|]. cbn [number]. intros X. discriminate X. }
  rewrite E, map_app. exists (map (expand ms) l), (expand ms (DocxModel.Para k fs)). split; [reflexivity|]. intros H. apply expand_table in H. destruct H as (id & H). discriminate.
Qed.
Lemma cell_try_wf r : (forall a b hs g, In (MTable b hs g) (fst r) -> well_formed [DTable a hs g]) -> well_formed (cell_try r).
Proof.
  destruct r as [ms ok]. cbn [cell_try fst]. intros H. destruct ok.
  - unfold cell_docx. apply expand_wf; [apply (DocxProps.C34_cell (number 0 ms) [] (number_defined ms 0))|exact H].
  - apply expand_wf; [|exact H]. destruct (DocxProof.flow_spec DocxModel.InCell (number 0 ms) false []) as (ad & E & _ & _ & A & _); [discriminate|]. rewrite E. cbn [app]. cbn in A. apply DocxProof.adj_spec. exact A.
Qed.

(* ---------------- tables ---------------- *)
Lemma tries_fit nr nc r rows : divides nr nc r rows -> fits_regions nr nc r (plain (srows_try rows)).
Proof.
  intros (Hl & D). split; [unfold plain, srows_try; rewrite !map_length; exact Hl|]. intros i h cells E. unfold plain, srows_try in E. rewrite map_map, nth_error_map in E.
  destruct (nth_error rows i) as [[h0 cs]|] eqn:Er; [|discriminate E]. cbn [option_map fst snd] in E. injection E as <- <-. destruct (D i h0 cs Er) as (Dl & Dc). rewrite !map_length. split; [exact Dl|].
  intros j c Ec. rewrite map_map, nth_error_map in Ec. destruct (nth_error cs j) as [[[info v] bs]|] eqn:Ecs; [|discriminate Ec]. cbn [option_map] in Ec. injection Ec as <-. specialize (Dc j info v bs Ecs).
  destruct info as [b|]; cbn [scell_try fst wc_info wc_vert wc_fill]; [exact Dc|]. destruct Dc as (D1 & D2 & _). auto.
Qed.
Lemma tries_heights rows : (forall h cells, In (h, cells) rows -> (0 <= h)%Q) -> forall h cells, In (h, cells) (srows_try rows) -> (0 <= h)%Q.
Proof. intros H h cells Hin. unfold srows_try in Hin. apply in_map_iff in Hin. destruct Hin as ([h0 cs] & E & Hin). cbn [fst snd] in E. injection E as <- _. exact (H h0 cs Hin). Qed.
Lemma tries_cols nr nc r rows : 0 < nr -> divides nr nc r rows -> columns rows = nc.
Proof. intros Hn (Hl & D). destruct rows as [|[h cells] t]; [cbn in Hl; lia|]. apply (D 0 h cells eq_refl). Qed.
Lemma tries_flat rows : concat (map snd (srows_try rows)) = map scell_try (concat (map snd rows)).
Proof. unfold srows_try. rewrite concat_map, !map_map. reflexivity. Qed.
Lemma plain_flat src : concat (map snd (plain src)) = map fst (concat (map snd src)).
Proof. unfold plain. rewrite concat_map, !map_map. reflexivity. Qed.
Lemma spans_flat before rows : spans_of (STable before rows) = flat_map (fun c : scell => flat_map spans_of (snd c)) (concat (map snd rows)).
Proof. cbn [spans_of]. induction rows as [|row rows IH]; [reflexivity|]. cbn [flat_map map concat]. rewrite flat_map_app, IH. reflexivity. Qed.
Lemma cells_in (rows : list (Q * list scell)) c : In c (concat (map snd rows)) -> exists h cells, In (h, cells) rows /\ In c cells.
Proof. intros H. apply in_concat in H. destruct H as (cells & H1 & H2). apply in_map_iff in H1. destruct H1 as ([h cs] & E & H1). cbn in E. subst cs. exists h, cells. auto. Qed.

(** What is shown of a regular block. *)
Lemma block_cut b : regular b -> (forall s, In s (spans_of b) -> usual s) -> su (spans_of b) (made_text (fst (try b))) (snd (try b)).
Proof.
  induction 1 as [t|before rows nr nc r Hn Part Div Hh _ IH]; intros U.
  - apply text_cut, U.
  - rewrite table_tries, (tries_cols nr nc r rows Hn Div).
    destruct (table_tried nr nc r (srows_try rows) Part (tries_fit nr nc r rows Div) (tries_heights rows Hh) Hn) as (hs & rest & E & _). rewrite E. cbn [fst snd made_text ditem_text].
    rewrite (state_text ditem _ dnewp ditem_text nr nc r (plain (srows_try rows)) _ eq_refl Part (tries_fit nr nc r rows Div)).
    rewrite plain_flat, <- until_firstn, tries_flat, spans_flat. rewrite spans_flat in U.
    apply su_until. intros [[info v] bs] Hc. destruct (cells_in rows _ Hc) as (h & cells & H1 & H2). cbn [snd].
    destruct info as [i|].
    + unfold fill_of. cbn [scell_try fst snd wc_fill]. assert (B : su (flat_map spans_of bs) (flat_map made_text (fst (until (map try bs)))) (snd (until (map try bs)))).
      { apply su_until. intros b Hb. apply (IH h cells (Some i) v bs b H1 H2 Hb). intros s Hs. apply U. apply in_flat_map. exists (Some i, v, bs). split; [exact Hc|]. apply in_flat_map. exists b. auto. }
      rewrite <- cell_try_text in B. destruct bs as [|b0 bs]; [apply su_nil|exact B].
    + unfold fill_of. cbn [scell_try fst snd wc_fill]. destruct (In_nth_error _ _ H1) as (i & Ei). destruct (In_nth_error _ _ H2) as (j & Ej). destruct Div as (_ & D). destruct (proj2 (D i h cells Ei) j None v bs Ej) as (_ & _ & ->). apply su_nil.
Qed.
(** A Word file that can be opened. *)
Lemma block_try_wf b : regular b -> forall a before hs g ok, try b = (MTable before hs g, ok) -> well_formed [DTable a hs g].
Proof.
  induction 1 as [t|before0 rows nr nc r Hn Part Div Hh _ IH]; intros a before hs g ok E.
  - cbn [block_try] in E. unfold text_try in E. destruct (items_try names uris (wp_items (text_docx t))) as [ws o]. discriminate E.
  - rewrite table_tries, (tries_cols nr nc r rows Hn Div) in E.
    destruct (table_tried nr nc r (srows_try rows) Part (tries_fit nr nc r rows Div) (tries_heights rows Hh) Hn) as (hs1 & rest & E1 & _). rewrite E1 in E. injection E as _ <- <- _.
    constructor; [apply single_adjacent|]. intros a2 hs2 g2 row t [Eq|[]] H2 H3. injection Eq as _ <- <-.
    destruct (state_bodies _ _ _ _ _ _ _ _ H2 H3) as [Eb|(h & ws & w & Hr & Hw & Hf)].
    + rewrite Eb. split; [exists [], dnewp; split; [reflexivity|intros (a0 & a1 & c & F); discriminate]|apply wf_para; intros (a0 & a1 & c & F); discriminate].
    + unfold plain, srows_try in Hr. rewrite map_map in Hr. apply in_map_iff in Hr. destruct Hr as ([h0 cells] & Er & Hr). cbn [fst snd] in Er. injection Er as <- <-.
      rewrite map_map in Hw. apply in_map_iff in Hw. destruct Hw as ([[info v] bs] & Ew & Hc). subst w. destruct info as [i|]; [|discriminate Hf]. cbn [scell_try fst wc_fill] in Hf.
      destruct bs as [|b0 bs]; [discriminate Hf|]. set (L := b0 :: bs) in *. assert (Hb : cell_try (until (map try L)) = t_body t) by (apply (f_equal (fun o => match o with Some z => z | None => [] end)) in Hf; exact Hf). clear Hf. rewrite <- Hb. split; [apply cell_try_last, until_false|].
      apply cell_try_wf. intros a3 bf hs3 g3 Hin. destruct (until_in _ _ Hin) as (ok3 & Hin3). apply in_map_iff in Hin3. destruct Hin3 as (x & Ex & Hx). exact (IH h0 cells (Some i) v L x Hr Hc Hx a3 bf hs3 g3 ok3 Ex).
Qed.
(** A block that came to its end is written as by TreeModel. *)
Lemma block_all b : regular b -> snd (try b) = true -> block_docx b = Some (fst (try b)).
Proof.
  induction 1 as [t|before rows nr nc r Hn Part Div Hh _ IH]; intros Ok.
  - cbn [block_docx block_try] in *. rewrite (text_all names uris t Ok). reflexivity.
  - rewrite table_tries, (tries_cols nr nc r rows Hn Div) in Ok |- *.
    destruct (table_tried nr nc r (srows_try rows) Part (tries_fit nr nc r rows Div) (tries_heights rows Hh) Hn) as (hs & rest & E1 & E2 & E3). rewrite E1 in Ok |- *. cbn [fst snd] in Ok |- *.
    specialize (E3 Ok). subst rest. rewrite app_nil_r in E2. destruct (until_true _ Ok) as (Eu & All). rewrite Eu in *. rewrite tries_flat in All.
    assert (Cell : forall h cells c, In (h, cells) rows -> In c cells -> scell_docx c = Some (fst (scell_try c))).
    { intros h cells [[info v] bs] H1 H2. destruct info as [i|]; [|reflexivity]. cbn [scell_docx scell_try fst].
      assert (Oc : snd (scell_try (Some i, v, bs)) = true) by (apply All, in_map, in_concat; exists cells; split; [apply in_map_iff; exists (h, cells); auto|exact H2]).
      cbn [scell_try snd] in Oc. destruct (until_true _ Oc) as (Ef & Oks).
      assert (As : TableModel.all_some (map block_docx bs) = Some (map fst (map try bs))).
      { assert (B : forall b, In b bs -> block_docx b = Some (fst (try b))) by (intros b Hb; apply (IH h cells (Some i) v bs b H1 H2 Hb), Oks, in_map, Hb).
        rewrite map_map. clear - B. induction bs as [|b bs IHb]; [reflexivity|]. cbn [map TableModel.all_some]. rewrite (B b (or_introl eq_refl)). cbn [obind]. rewrite IHb by (intros x Hx; apply B; right; exact Hx). reflexivity. }
      rewrite As. cbn [option_map]. f_equal. f_equal. assert (Ct : cell_docx (map fst (map try bs)) = cell_try (until (map try bs))) by (rewrite (surjective_pairing (until _)), Oc, Ef; reflexivity). rewrite <- Ct. destruct bs as [|b0 bs]; reflexivity. }
    rewrite table_docx.
    assert (Src : TableModel.all_some (map (srow_docx (columns rows)) rows) = Some (plain (srows_try rows))).
    { rewrite (tries_cols nr nc r rows Hn Div). assert (Rows : forall row, In row rows -> srow_docx nc row = Some (fst row, map (fun c => fst (scell_try c)) (snd row))).
      { intros [h cells] Hrow. unfold srow_docx. cbn [fst snd]. rewrite firstn_all2.
        2:{ rewrite map_length. destruct (In_nth_error _ _ Hrow) as (i & Ei). destruct Div as (_ & D). rewrite (proj1 (D i h cells Ei)). lia. }
        assert (G : TableModel.all_some (map scell_docx cells) = Some (map (fun c => fst (scell_try c)) cells)).
        { assert (K : forall c, In c cells -> scell_docx c = Some (fst (scell_try c))) by (intros c Hc; exact (Cell h cells c Hrow Hc)).
          clear - K. induction cells as [|c cells IHc]; [reflexivity|]. cbn [map TableModel.all_some]. rewrite (K c (or_introl eq_refl)). cbn [obind]. rewrite IHc by (intros x Hx; apply K; right; exact Hx). reflexivity. }
        rewrite G. reflexivity. }
      unfold plain, srows_try. rewrite map_map. cbn [fst snd]. clear - Rows. induction rows as [|row rows IHr]; [reflexivity|]. cbn [map TableModel.all_some]. rewrite (Rows row (or_introl eq_refl)). cbn [obind fst snd]. rewrite map_map.
      rewrite IHr by (intros x Hx; apply Rows; right; exact Hx). reflexivity. }
    rewrite Src. cbn [obind].
    assert (Hh' : forall h cells, In (h, cells) (plain (srows_try rows)) -> (0 <= h)%Q).
    { intros h cells Hin. unfold plain in Hin. apply in_map_iff in Hin. destruct Hin as ([h0 cs] & Eq & Hin). cbn [fst snd] in Eq. injection Eq as <- _. exact (tries_heights rows Hh h0 cs Hin). }
    rewrite (table_written dnewp dnoruns eq_refl nr nc r _ Part (tries_fit nr nc r rows Div) Hh' Hn). cbn [option_map fst snd]. f_equal. f_equal.
    + rewrite <- E2. unfold plain. rewrite map_map. reflexivity.
    + f_equal. rewrite map_length, tries_flat, map_length. destruct Div as (Hl & D). clear - Hl D. unfold idx. rewrite Nat.add_0_r, <- Hl.
      assert (K : forall row, In row rows -> List.length (snd row) = nc) by (intros [h cells] Hr; destruct (In_nth_error _ _ Hr) as (i & Ei); exact (proj1 (D i h cells Ei))). clear D Hl.
      induction rows as [|row rows IH]; [reflexivity|]. cbn [map concat List.length]. rewrite app_length, (K row (or_introl eq_refl)), Nat.mul_succ_l, <- IH by (intros x Hx; apply K; right; exact Hx). lia.
Qed.
End Blocks.
