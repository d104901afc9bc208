(** Lemmas of C81: documents. *)
From Verif Require Import CutSpec ParaSpec TreeProof TreeProof2 TreeProof3 WordProof WordProof2 WordProof3 WordProps CutProof CutProof2 CutProof3.
From Verif Require DocxModel DocxSpec DocxProof DocxProps FailModel FailSpec FailProof FailProps.
From Coq Require Import Lia Lqa.
Open Scope nat_scope.

Lemma number_length ms : forall k, List.length (number k ms) = List.length ms.
Proof. induction ms as [|m t IH]; intros k; [reflexivity|]. cbn [number List.length]. rewrite IH. reflexivity. Qed.
Lemma number_filter ms k : filter (fun b => DocxModel.is_text_image b || DocxModel.is_table b) (number k ms) = number k ms.
Proof. revert k. induction ms as [|m t IH]; intros k; [reflexivity|]. cbn [number filter]. rewrite IH. destruct m; reflexivity. Qed.
Definition trouble_of (x : list made * bool) : FailModel.trouble := if snd x then FailModel.Fine else FailModel.InBlock (List.length (fst x) - 1).
Lemma begun_all sec fs k x : (snd x = false -> fst x <> []) -> FailSpec.begun (DocxModel.mkPage sec (number k (fst x)) fs, trouble_of x) = number k (fst x).
Proof.
  intros N. unfold FailSpec.begun, trouble_of. cbn [fst snd DocxModel.p_blocks]. destruct (snd x); [reflexivity|]. apply firstn_all2. rewrite number_length. destruct (fst x); [destruct (N eq_refl); reflexivity|cbn; lia].
Qed.
Lemma possible_all sec fs k x : (snd x = false -> fst x <> []) -> FailSpec.possible (DocxModel.mkPage sec (number k (fst x)) fs, trouble_of x).
Proof.
  intros N. split; cbn [fst snd DocxModel.p_blocks]; [intros b; apply number_defined|]. intros n E. unfold trouble_of in E. destruct (snd x); [discriminate E|]. injection E as <-.
  destruct (nth_error (number k (fst x)) (List.length (fst x) - 1)) as [y|] eqn:Ey.
  - exists y. split; [reflexivity|]. apply nth_error_In in Ey. exact (number_flowing _ _ _ Ey).
  - apply nth_error_None in Ey. rewrite number_length in Ey. destruct (fst x); [destruct (N eq_refl); reflexivity|cbn in Ey; lia].
Qed.
Lemma pages_begun_cons k p x t : pages_begun k ((p, x) :: t) = (DocxModel.mkPage (sp_section p) (number k (fst x)) (sp_floats p), trouble_of x) :: pages_begun (k + List.length (fst x)) t.
Proof. destruct x as [ms ok]. reflexivity. Qed.

Section Document.
Variables (names uris : nat -> list Z).
Notation su := (shows_until names).
Notation try := (block_try names uris).
Notation made_page p := (until (map try (sp_blocks p))).
Notation pages k ps := (pages_begun k (combine ps (map (fun p => made_page p) ps))).

Lemma pages_possible ps : forall k q, In q (pages k ps) -> FailSpec.possible q.
Proof.
  induction ps as [|p ps IH]; intros k q H; [destruct H|]. cbn [map combine] in H. rewrite pages_begun_cons in H. destruct H as [<-|H]; [apply possible_all, until_false|exact (IH _ _ H)].
Qed.
Lemma pages_sections_ ps : forall k, map (fun q => DocxModel.p_section (fst q)) (pages k ps) = map sp_section ps.
Proof. induction ps as [|p ps IH]; intros k; [reflexivity|]. cbn [map combine]. rewrite pages_begun_cons. cbn [map fst DocxModel.p_section]. rewrite IH. reflexivity. Qed.
Lemma pages_texts (P : spage -> list (glyph * list style) -> Prop) : forall ps pre all contents,
  (forall p, In p ps -> P p (flat_map made_text (fst (made_page p)))) -> all = pre ++ concat (map fst (map (fun p => made_page p) ps)) ->
  Forall2 (fun content q => flat_map DocxSpec.shows content = DocxSpec.should_show (FailSpec.begun q)) contents (pages (List.length pre) ps) ->
  Forall2 (fun content p => P p (flat_map ditem_text content)) (map (map (expand all)) contents) ps.
Proof.
  induction ps as [|p ps IH]; intros pre all contents T Ea C.
  - cbn in C. inversion C; subst. constructor.
  - cbn [map combine] in C. rewrite pages_begun_cons in C. inversion C as [|content ? contents' ? C1 C2]; subst. cbn [map]. constructor.
    + rewrite expand_text, C1, begun_all by apply until_false. cbn [map concat]. erewrite (named_number _ pre (fst (made_page p)) _ eq_refl). apply T. left. reflexivity.
    + apply (IH (pre ++ fst (made_page p))); [intros q Hq; apply T; right; exact Hq|cbn [map concat]; rewrite app_assoc; reflexivity|]. rewrite app_length. exact C2.
Qed.
Lemma pages_floats ps : forall k, flat_map FailSpec.begun_floats (pages k ps) = flat_map (fun p => if snd (made_page p) then sp_floats p else []) ps.
Proof.
  induction ps as [|p ps IH]; intros k; [reflexivity|]. cbn [map combine]. rewrite pages_begun_cons. cbn [flat_map]. rewrite IH. f_equal. unfold FailSpec.begun_floats, trouble_of. cbn [fst snd DocxModel.p_floats]. destruct (snd (made_page p)); reflexivity.
Qed.
Lemma page_cut p : (forall b, In b (sp_blocks p) -> regular b) -> (forall s, In s (page_spans p) -> usual s) ->
  su (page_spans p) (flat_map made_text (fst (made_page p))) (snd (made_page p)).
Proof.
  intros R U. apply su_until. intros b Hb. apply block_cut; [exact (R b Hb)|]. intros s Hs. apply U. apply in_flat_map. exists b. auto.
Qed.
Lemma su_ok ss text ok : su ss text ok -> (ok = true <-> forall s, In s ss -> writable names s).
Proof.
  intros H. inversion H as [W E|a t b part rest E W U E2 Er Lg]; subst; [tauto|]. split; [discriminate|]. intros K. exfalso. apply (K (SText t)); [apply in_elt|exact U].
Qed.
Lemma first_fine p ps : (forall b, In b (sp_blocks p) -> regular b) -> (forall s, In s (page_spans p) -> usual s) -> starts_well names p ->
  forall q, hd_error (pages 0 (p :: ps)) = Some q -> ~ FailSpec.in_first_table q.
Proof.
  intros R U S q E. cbn [map combine] in E. rewrite pages_begun_cons in E. cbn [hd_error] in E. injection E as <-. intros (k & x & Et & F & T & L). cbn [fst snd DocxModel.p_blocks] in *.
  unfold trouble_of in Et. destruct (snd (made_page p)) eqn:Ok; [discriminate Et|]. injection Et as <-.
  rewrite firstn_all2 in F. 2:{ rewrite number_length. pose proof (until_false _ Ok) as N. destruct (fst (made_page p)); [destruct N; reflexivity|cbn; lia]. }
  rewrite number_filter in F.
  destruct (sp_blocks p) as [|b bs] eqn:Eb; [discriminate Ok|]. cbn [map until] in Ok, F. destruct (try b) as [m ok] eqn:Em. destruct ok.
  - destruct (until (map try bs)) as [r o] eqn:Er. cbn [fst snd number] in Ok, F. subst o. injection F as _ F. destruct r as [|m' r]; [|discriminate F].
    pose proof (until_false (map try bs)) as N. rewrite Er in N. apply (N eq_refl). reflexivity.
  - cbn [fst number] in F. injection F as <-. destruct b as [t|before rows].
    + cbn [block_try] in Em. unfold text_try in Em. destruct (items_try names uris (wp_items (text_docx t))) as [ws o]. injection Em as <- _. discriminate T.
    + assert (Um : forall s, In s (spans_of (STable before rows)) -> usual s) by (intros s Hs; apply U; unfold page_spans; rewrite Eb; cbn [flat_map]; apply in_or_app; left; exact Hs).
      pose proof (block_cut names uris (STable before rows) (R _ (or_introl eq_refl)) Um) as C. rewrite Em in C. cbn [snd] in C. apply su_ok in C.
      rewrite table_tries in Em. destruct (table_try _ _) as [[hs g] o]. injection Em as <- ->. cbn [DocxModel.b_before made_before] in L.
      destruct (S before rows bs Eb) as [H|H]; [lra|]. apply C in H. discriminate H.
Qed.

Definition usual_page (p : spage) : Prop := (forall b, In b (sp_blocks p) -> regular b) /\ (forall s, In s (page_spans p) -> usual s).
Lemma document_cut tpl p ps : (forall q, In q (p :: ps) -> usual_page q) -> starts_well names p ->
  let d := document_try names uris tpl (p :: ps) in
  fst d = map sp_section (p :: ps) /\ well_formed (snd d) /\
  Forall2 (fun content q => exists ok, su (page_spans q) (flat_map ditem_text content) ok) (dsections [] (snd d)) (p :: ps) /\
  flat_map floats_of (snd d) = flat_map (fun q => if snd (made_page q) then sp_floats q else []) (p :: ps) /\
  ((forall l q, p :: ps = l ++ [q] -> forall s, In s (page_spans q) -> writable names s) -> forall l x, snd d = l ++ [x] -> ~ is_dtable x).
Proof.
  intros H S. cbv zeta. unfold document_try. set (rs := map (fun q => made_page q) (p :: ps)). set (pts := pages_begun 0 (combine (p :: ps) rs)).
  assert (Ept : pts = pages 0 (p :: ps)) by reflexivity. cbn [fst snd].
  assert (Hp : forall q, In q pts -> FailSpec.possible q) by (intros q; rewrite Ept; apply pages_possible).
  clearbody pts. destruct pts as [|pt pts']; [exfalso; clear - Ept; cbn [map combine] in Ept; rewrite pages_begun_cons in Ept; discriminate Ept|].
  assert (Hf : ~ FailSpec.in_first_table pt).
  { destruct (H p (or_introl eq_refl)) as (R & U). apply (first_fine p ps R U S). rewrite <- Ept. reflexivity. }
  destruct (FailProps.C79_others_kept tpl pt pts' Hf Hp) as (Se & Na & Sh & Fl & En). set (d := FailModel.make_pages_try tpl (pt :: pts')) in *.
  split; [rewrite Se, Ept, pages_sections_; reflexivity|]. split.
  { apply expand_wf; [exact Na|]. intros a b hs g Hin. apply in_concat in Hin. destruct Hin as (ms & H1 & H2). apply in_map_iff in H1. destruct H1 as (x & <- & H1). unfold rs in H1. apply in_map_iff in H1. destruct H1 as (q & <- & Hq).
    destruct (until_in _ _ H2) as (ok & H3). apply in_map_iff in H3. destruct H3 as (y & Ey & Hy). exact (block_try_wf names uris y (proj1 (H q Hq) y Hy) a b hs g ok Ey). }
  split.
  { change (@nil ditem) with (map (expand (concat (map fst rs))) []). rewrite expand_sections. rewrite Ept in Sh.
    apply (pages_texts (fun q text => exists ok, su (page_spans q) text ok) (p :: ps) [] _ _); [|reflexivity|exact Sh].
    intros q Hq. exists (snd (made_page q)). destruct (H q Hq) as (R & U). apply page_cut; assumption. }
  split.
  { transitivity (flat_map DocxSpec.images_of (DocxModel.d_body d)); [clear; induction (DocxModel.d_body d) as [|i l IH]; [reflexivity|]; cbn [map flat_map]; rewrite expand_floats, IH; reflexivity|]. rewrite Fl, Ept. apply pages_floats. }
  intros W l x E. apply map_eq_app in E. destruct E as (l1 & l2 & Eb & _ & E2). destruct l2 as [|i [|? ?]]; try discriminate E2. cbn in E2. injection E2 as <-. intros T. apply expand_table in T. destruct T as (id & ->).
  apply En; [|exists l1, id; exact Eb]. intros l3 p3 k3 E3. rewrite Ept in E3.
  destruct (exists_last (l := p :: ps)) as (l4 & q & E4); [discriminate|].
  assert (Last : forall qs k l3 p3 k3, pages k (qs ++ [q]) = l3 ++ [(p3, FailModel.InBlock k3)] -> snd (made_page q) = false).
  { clear. induction qs as [|q0 qs IH]; intros k l3 p3 k3 E; cbn [app map combine] in E; rewrite pages_begun_cons in E.
    - cbn in E. assert (L : List.length l3 = 0) by (apply (f_equal (@List.length _)) in E; rewrite app_length in E; cbn in E; lia). destruct l3; [|discriminate L]. cbn [app] in E. injection E as _ E. unfold trouble_of in E. destruct (snd (made_page q)); [discriminate E|reflexivity].
    - destruct l3 as [|y l3].
      + exfalso. cbn [app] in E. injection E as _ _ E. apply (f_equal (@List.length _)) in E. destruct qs; cbn [app map combine] in E; rewrite pages_begun_cons in E; discriminate E.
      + cbn [app] in E. injection E as _ E. exact (IH _ _ _ _ E). }
  rewrite E4 in E3. apply Last in E3. assert (Hq : In q (p :: ps)) by (rewrite E4; apply in_or_app; right; left; reflexivity). destruct (H q Hq) as (R & U).
  pose proof (su_ok _ _ _ (page_cut q R U)) as O. rewrite (proj2 O) in E3; [discriminate E3|]. exact (W l4 q E4).
Qed.
(** All pages written in full. *)
Lemma page_all p : (forall b, In b (sp_blocks p) -> regular b) -> snd (made_page p) = true -> TableModel.all_some (map block_docx (sp_blocks p)) = Some (fst (made_page p)).
Proof.
  intros R Ok. destruct (until_true _ Ok) as (E & All). rewrite E, map_map.
  assert (K : forall b, In b (sp_blocks p) -> block_docx b = Some (fst (try b))) by (intros b Hb; apply block_all; [exact (R b Hb)|apply All, in_map, Hb]). clear - K.
  induction (sp_blocks p) as [|b bs IH]; [reflexivity|]. cbn [map TableModel.all_some]. rewrite (K b (or_introl eq_refl)), IH by (intros x Hx; apply K; right; exact Hx). reflexivity.
Qed.
Lemma document_all tpl ps : (forall q, In q ps -> usual_page q) -> (forall q s, In q ps -> In s (page_spans q) -> writable names s) -> document_docx tpl ps = Some (document_try names uris tpl ps).
Proof.
  intros H W. assert (Ok : forall q, In q ps -> snd (made_page q) = true) by (intros q Hq; destruct (H q Hq) as (R & U); apply (su_ok _ _ _ (page_cut q R U)); intros s Hs; exact (W q s Hq Hs)).
  unfold document_docx, document_try.
  assert (E : TableModel.all_some (map (fun p => TableModel.all_some (map block_docx (sp_blocks p))) ps) = Some (map fst (map (fun q => made_page q) ps))).
  { assert (K : forall q, In q ps -> TableModel.all_some (map block_docx (sp_blocks q)) = Some (fst (made_page q))) by (intros q Hq; apply page_all; [exact (proj1 (H q Hq))|exact (Ok q Hq)]). clear - K.
    induction ps as [|q ps IH]; [reflexivity|]. cbn [map TableModel.all_some]. rewrite (K q (or_introl eq_refl)), IH by (intros x Hx; apply K; right; exact Hx). reflexivity. }
  match goal with |- option_map _ ?x = _ => replace x with (Some (map fst (map (fun q => made_page q) ps))) by (symmetry; exact E) end. cbn [option_map]. f_equal.
  assert (Ep : pages_begun 0 (combine ps (map (fun q => made_page q) ps)) = map (fun q => (q, FailModel.Fine)) (number_pages 0 (combine ps (map fst (map (fun q => made_page q) ps))))).
  { clear - Ok. generalize 0. induction ps as [|q ps IH]; intros k; [reflexivity|]. cbn [map combine]. rewrite pages_begun_cons. cbn [number_pages map]. rewrite IH by (intros x Hx; apply Ok; right; exact Hx). unfold trouble_of. rewrite (Ok q (or_introl eq_refl)). reflexivity. }
  rewrite Ep, FailProps.C79_no_trouble. reflexivity.
Qed.
End Document.
