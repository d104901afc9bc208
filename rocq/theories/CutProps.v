(** C81: pages with text that cannot be written. *)
From Verif Require Import CutSpec ParaSpec TreeProof TreeProps CutProof CutProof2 CutProof3 CutProof4.
From Verif Require DocxModel FailModel.
From Coq Require Import Lia Lqa.
Open Scope nat_scope.

(** Of each page, the document has its section and shows its text and pictures in order: all of them, or, if there are pieces of text that
    cannot be written, what comes before the first of them - in the middle of a paragraph or of a cell of a table, at any depth - and
    a part of this piece from its start.  Word can open the document. *)
Theorem C81_pages names uris tpl p ps : (forall q, In q (p :: ps) -> (forall b, In b (sp_blocks q) -> regular b) /\ (forall s, In s (page_spans q) -> usual s)) -> starts_well names p ->
  let d := document_try names uris tpl (p :: ps) in
  fst d = map sp_section (p :: ps) /\ well_formed (snd d) /\
  Forall2 (fun content q => exists ok, shows_until names (page_spans q) (flat_map ditem_text content) ok) (dsections [] (snd d)) (p :: ps) /\
  ((forall l q, p :: ps = l ++ [q] -> forall s, In s (page_spans q) -> writable names s) -> forall l x, snd d = l ++ [x] -> ~ is_dtable x).
Proof.
  intros H S. destruct (document_cut names uris tpl p ps H S) as (A & B & C & _ & D). cbv zeta. auto.
Qed.
Print Assumptions C81_pages.
(** A page all of whose text can be written is complete, whatever the other pages hold. *)
Theorem C81_page_complete names uris tpl p ps i q : (forall q, In q (p :: ps) -> (forall b, In b (sp_blocks q) -> regular b) /\ (forall s, In s (page_spans q) -> usual s)) -> starts_well names p ->
  nth_error (p :: ps) i = Some q -> (forall s, In s (page_spans q) -> writable names s) ->
  exists content, nth_error (dsections [] (snd (document_try names uris tpl (p :: ps)))) i = Some content /\ flat_map ditem_text content = flat_map sblock_text (sp_blocks q).
Proof.
  intros H S E W. destruct (C81_pages names uris tpl p ps H S) as (_ & _ & F & _). revert F E. generalize (dsections [] (snd (document_try names uris tpl (p :: ps)))) (p :: ps). clear H S. intros cs0 qs0 F. revert i.
  induction F as [|c q0 cs qs (ok & G) _ IH]; intros i E; [destruct i; discriminate E|]. destruct i as [|i]; [|exact (IH i E)]. cbn in E. injection E as ->. exists c. split; [reflexivity|].
  inversion G as [_ Et|a t b part rest Es _ U]; subst.
  - rewrite Et. unfold page_spans, styled. clear. induction (sp_blocks q) as [|b bs IH]; [reflexivity|]. cbn [flat_map]. rewrite flat_map_app, IH. f_equal. clear.
    induction b as [t|before rows IH] using TreeProof2.sblock_ind'; cbn [spans_of sblock_text].
    + unfold line_glyphs, styled. induction (st_lines t) as [|l ls IHl]; [reflexivity|]. cbn [flat_map]. rewrite flat_map_app, IHl. reflexivity.
    + assert (G : forall rows', (forall x, In x rows' -> In x rows) -> flat_map span_glyphs (flat_map (fun row : Q * list scell => flat_map (fun c : scell => flat_map spans_of (snd c)) (snd row)) rows') = flat_map (fun row : Q * list scell => flat_map (fun c : scell => flat_map sblock_text (snd c)) (snd row)) rows').
      { induction rows' as [|[h cells] rows' IHr]; intros Hin; [reflexivity|]. cbn [flat_map snd]. rewrite flat_map_app, IHr by (intros x Hx; apply Hin; right; exact Hx). f_equal.
        assert (G : forall cells', (forall x, In x cells' -> In x cells) -> flat_map span_glyphs (flat_map (fun c : scell => flat_map spans_of (snd c)) cells') = flat_map (fun c : scell => flat_map sblock_text (snd c)) cells').
        { induction cells' as [|[[info v] bs] cells' IHc]; intros Hic; [reflexivity|]. cbn [flat_map snd]. rewrite flat_map_app, IHc by (intros x Hx; apply Hic; right; exact Hx). f_equal.
          assert (K : forall b, In b bs -> flat_map span_glyphs (spans_of b) = sblock_text b) by (intros b Hb; exact (IH h cells info v bs b (Hin _ (or_introl eq_refl)) (Hic _ (or_introl eq_refl)) Hb)).
          clear - K. induction bs as [|b bs IHb]; [reflexivity|]. cbn [flat_map]. rewrite flat_map_app, (K b (or_introl eq_refl)), IHb by (intros x Hx; apply K; right; exact Hx). reflexivity. }
        apply G. auto. }
      apply G. auto.
  - exfalso. apply (W (SText t)); [rewrite Es; apply in_elt|exact U].
Qed.
Print Assumptions C81_page_complete.
(** Floating pictures: those of a page all of whose text can be written; none of the others. *)
Theorem C81_pictures names uris tpl p ps : (forall q, In q (p :: ps) -> (forall b, In b (sp_blocks q) -> regular b) /\ (forall s, In s (page_spans q) -> usual s)) -> starts_well names p ->
  exists fss, flat_map floats_of (snd (document_try names uris tpl (p :: ps))) = concat fss /\
    Forall2 (fun fs q => ((forall s, In s (page_spans q) -> writable names s) -> fs = sp_floats q) /\ ((exists s, In s (page_spans q) /\ ~ writable names s) -> fs = [])) fss (p :: ps).
Proof.
  intros H S. destruct (document_cut names uris tpl p ps H S) as (_ & _ & _ & D & _). cbv zeta in D. rewrite D. clear D S. revert H. generalize (p :: ps). clear p ps. intros qs H.
  exists (map (fun q => if snd (until (map (block_try names uris) (sp_blocks q))) then sp_floats q else []) qs). split; [apply flat_map_concat_map|].
  induction qs as [|q qs IH]; cbn [map]; constructor; [|apply IH; intros x Hx; apply H; right; exact Hx].
  destruct (H q (or_introl eq_refl)) as (R & U). pose proof (su_ok _ _ _ _ (page_cut names uris q R U)) as O. split.
  - intros W. rewrite (proj2 O W). reflexivity.
  - intros (s & Hs & N). destruct (snd (until (map (block_try names uris) (sp_blocks q)))); [|reflexivity]. exfalso. apply N. exact (proj1 O eq_refl s Hs).
Qed.
Print Assumptions C81_pictures.
(** If all text can be written, the document is that of C70. *)
Theorem C81_all_written names uris tpl ps : (forall q, In q ps -> (forall b, In b (sp_blocks q) -> regular b) /\ (forall s, In s (page_spans q) -> usual s)) ->
  (forall q s, In q ps -> In s (page_spans q) -> writable names s) -> document_docx tpl ps = Some (document_try names uris tpl ps).
Proof. exact (document_all names uris tpl ps). Qed.
Print Assumptions C81_all_written.

(* ------------------------------------------------------------------ *)
(** * Examples *)
Definition ct_names (n : nat) : list Z := [65; 114; 105; 97; 108]%Z.
Definition ct_text (s : list Z) : sblock :=
  ST (mkSText (mkRect 0 0 100 10) fresh_para 0 0 10 [mkLine (mkRect 0 0 100 10) LEFT_RIGHT [SText (mkTspan (map (fun c => mkChar c (mkRect 0 0 10 10)) s) (mkRect 0 0 100 10) [] (mkAttrs 1 12 0 0))] None false] [false]).
Definition ct_table (a b c d : list Z) : sblock :=
  STable (mkTP 2 0 true) [(10%Q, [tr_cell 2 1 [ct_text a; STable (mkTP 0 0 true) [(10%Q, [tr_cell 1 1 [ct_text b]; tr_cell 1 1 []])]]; tr_cell 1 1 [ct_text c]]); (10%Q, [tr_none; tr_cell 1 1 [ct_text d]])].
Definition ct_page (bs : list sblock) (fs : list nat) : spage := mkSPage (DocxModel.mkSection 600 800 []) bs fs.
Lemma ct_regular a b c d : regular (ct_table a b c d).
Proof.
  apply (regular_table _ _ 2 2 tr_reg); [lia|apply tr_reg2| | |].
  - split; [reflexivity|]. intros i h cells E. destruct i as [|[|i]]; cbn in E; [| |destruct i; discriminate E]; injection E as <- <-; (split; [reflexivity|]); intros j info v bs E; destruct j as [|[|j]]; cbn in E; try (destruct j; discriminate E); injection E as <- <- <-; cbn; try reflexivity. split; [discriminate|auto].
  - intros h cells [E|[E|[]]]; injection E as <- _; discriminate.
  - intros h cells info v bs x [E|[E|[]]] H2 H3; injection E as <- <-; destruct H2 as [E|[E|[]]]; injection E as <- <- <-; cbn in H3.
    + destruct H3 as [<-|[<-|[]]]; [constructor|]. apply (regular_table _ _ 1 2 (fun i j => (i, j, 1, 1))); [lia|apply tr_reg1| | |].
      * split; [reflexivity|]. intros i h cells E. destruct i as [|i]; cbn in E; [|destruct i; discriminate E]; injection E as <- <-. split; [reflexivity|]. intros j info v bs E; destruct j as [|[|j]]; cbn in E; try (destruct j; discriminate E); injection E as <- <- <-; reflexivity.
      * intros h cells [E|[]]; injection E as <- _; discriminate.
      * intros h cells info v bs y [E|[]] H2 H3; injection E as <- <-; destruct H2 as [E|[E|[]]]; injection E as <- <- <-; cbn in H3; [destruct H3 as [<-|[]]; constructor|destruct H3].
    + destruct H3 as [<-|[]]; constructor.
    + destruct H3.
    + destruct H3 as [<-|[]]; constructor.
Qed.
Lemma ct_usual s x : In x (spans_of (ct_text s)) -> usual x.
Proof. intros [<-|[]]. cbn. split; [discriminate|]. unfold color_value. lia. Qed.
Lemma ct_usual_table a b c d x : In x (spans_of (ct_table a b c d)) -> usual x.
Proof.
  intros H. cbn [ct_table spans_of flat_map snd tr_cell tr_none app] in H. repeat (apply in_app_or in H; destruct H as [H|H]); try (exact (ct_usual _ _ H)); destruct H.
Qed.
(** A page cut off in a cell of a table in a cell, after a tab; a page cut off in a link-free paragraph; a page that is complete. *)
Example C81_nonvacuous :
  let ps := [ct_page [ct_text [97; 98]; ct_table [99] [100; 9; 101; 1; 102] [103] [104]; ct_text [105]]%Z [5];
             ct_page [ct_text [106]; ct_table [107] [108] [109] [110]; ct_text [111]]%Z [6; 7];
             ct_page [ct_text [112; 10; 113; 0; 114]; ct_text [115]]%Z []] in
  (forall q, In q ps -> (forall b, In b (sp_blocks q) -> regular b) /\ (forall s, In s (page_spans q) -> usual s)) /\ starts_well ct_names (hd (ct_page [] []) ps) /\
  let d := document_try ct_names ct_names (DocxModel.mkSection 1 1 []) ps in
  map (fun c => tr_letters (flat_map ditem_text c)) (dsections [] (snd d)) = [[97; 98; 99; 100; 9]; [106; 107; 108; 109; 110; 111]; [112; 10]]%Z /\ flat_map floats_of (snd d) = [6; 7].
Proof.
  cbv zeta. split; [|split; [|split; vm_compute; reflexivity]].
  - intros q Hq. split.
    + intros b Hb. destruct Hq as [<-|[<-|[<-|[]]]]; cbn [ct_page sp_blocks] in Hb; repeat (destruct Hb as [<-|Hb]; [first [apply ct_regular|constructor]|]); destruct Hb.
    + intros s Hs. unfold page_spans in Hs. apply in_flat_map in Hs. destruct Hs as (b & Hb & Hs). destruct Hq as [<-|[<-|[<-|[]]]]; cbn [ct_page sp_blocks] in Hb; repeat (destruct Hb as [<-|Hb]; [first [exact (ct_usual_table _ _ _ _ _ Hs)|exact (ct_usual _ _ Hs)]|]); destruct Hb.
  - intros before rows bs E. discriminate E.
Qed.
(** Finding: one character that XML does not allow (here U+0001, which PDF files do contain) makes the rest of its page be left out: the page
    has a paragraph with this character, a table and another paragraph, and nothing of them is in the document. *)
Theorem C81_rest_lost_refuted : exists p q, (forall x, In x [p; q] -> (forall b, In b (sp_blocks x) -> regular b) /\ (forall s, In s (page_spans x) -> usual s)) /\ starts_well ct_names p /\
  tr_letters (flat_map sblock_text (sp_blocks p)) = [97; 98; 1; 99; 100; 101; 102; 103; 104; 105]%Z /\
  map (fun c => tr_letters (flat_map ditem_text c)) (dsections [] (snd (document_try ct_names ct_names (DocxModel.mkSection 1 1 []) [p; q]))) = [[]; [106]]%Z.
Proof.
  exists (ct_page [ct_text [97; 98; 1; 99]; ct_table [100] [101] [102] [103]; ct_text [104; 105]]%Z []), (ct_page [ct_text [106]%Z] []). split; [|split; [|split; vm_compute; reflexivity]].
  - intros x Hx. split.
    + intros b Hb. destruct Hx as [<-|[<-|[]]]; cbn [ct_page sp_blocks] in Hb; repeat (destruct Hb as [<-|Hb]; [first [apply ct_regular|constructor]|]); destruct Hb.
    + intros s Hs. unfold page_spans in Hs. apply in_flat_map in Hs. destruct Hs as (b & Hb & Hs). destruct Hx as [<-|[<-|[]]]; cbn [ct_page sp_blocks] in Hb; repeat (destruct Hb as [<-|Hb]; [first [exact (ct_usual_table _ _ _ _ _ Hs)|exact (ct_usual _ _ Hs)]|]); destruct Hb.
  - intros before rows bs E. discriminate E.
Qed.
Print Assumptions C81_rest_lost_refuted.
