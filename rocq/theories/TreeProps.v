(** C70: the Word document as a whole. *)
From Verif Require Import TreeSpec TreeProof TreeProof2 TreeProof3 TreeProof4 TreeProof5 TreeProof6 WordProps LayoutModel LayoutSpec LayoutProps FlowSpec.
From Verif Require DocxModel DocxSpec DocxProps.
From Coq Require Import Lia.
Open Scope nat_scope.

(** Pages of text and regular tables, nested to any depth: the document is written, a section per page; each section shows, in order and
    into the tables row by row, exactly the text of its page, and the pictures are all there; no two tables touch at
    any depth, each cell ends with a paragraph, the document does not end with a table. *)
Theorem C70_document tpl ps : ps <> [] -> (forall p b, In p ps -> In b (sp_blocks p) -> regular b) ->
  exists body, document_docx tpl ps = Some (map sp_section ps, body) /\ well_formed body /\ (forall l d, body = l ++ [d] -> ~ is_dtable d) /\
    Forall2 (fun content p => flat_map ditem_text content = flat_map sblock_text (sp_blocks p)) (dsections [] body) ps /\
    flat_map floats_of body = flat_map sp_floats ps.
Proof. apply document_written. Qed.
Print Assumptions C70_document.
(** Whatever the tables: if the document is written, every cell at any depth ends with a paragraph (Word refuses
    other files), and nothing in it was made up. *)
Theorem C70_cells_closed tpl ps secs body : document_docx tpl ps = Some (secs, body) ->
  closed body /\ incl (flat_map ditem_text body) (flat_map (fun p => flat_map sblock_text (sp_blocks p)) ps).
Proof. intros E. split; [apply (document_closed tpl ps secs), E|apply (document_incl tpl ps secs body E)]. Qed.
Print Assumptions C70_cells_closed.
(** Whatever the pages: if the document is written, each page has its section, with one paragraph for each text block, with the
    characters, pictures and formats of its lines, and one table for each table, in the order of the blocks; nothing else
    in it has text; what is in the cells of its tables was on the page.  The pictures of all pages are there, in order. *)
Theorem C70_blocks tpl ps secs body : ps <> [] -> document_docx tpl ps = Some (secs, body) ->
  secs = map sp_section ps /\
  Forall2 (fun content p => flat_map entry content = map block_entry (sp_blocks p)) (dsections [] body) ps /\
  Forall2 (fun content p => incl (flat_map ditem_text content) (flat_map sblock_text (sp_blocks p))) (dsections [] body) ps /\
  flat_map floats_of body = flat_map sp_floats ps.
Proof. apply document_entries. Qed.
Print Assumptions C70_blocks.
(** Regular pages, tables in tables to any depth: in the section of each page one item for each block, in order, that shows it (a table with the
    same division into cells, the same borders, shadings and widths, and its blocks in each cell), besides auxiliary paragraphs without text. *)
Theorem C70_displayed tpl ps : ps <> [] -> (forall p b, In p ps -> In b (sp_blocks p) -> regular b) ->
  exists body, document_docx tpl ps = Some (map sp_section ps, body) /\
    Forall2 (fun content p => Forall2 displays (sp_blocks p) (filter visible content)) (dsections [] body) ps.
Proof. intros H R. destruct (document_written tpl ps H R) as (body & E & _). exists body. split; [exact E|]. apply (document_displayed tpl ps _ body H R E). Qed.
Print Assumptions C70_displayed.
(** From a parsed layout (C66): characters and pictures of the document were on the page, with their formats; formats added are those of shapes of the page. *)
Theorem C70_from_page order rorder ids st fuel top w box bs ss w' out tpl p secs body : (forall l, Permutation l (order l)) ->
  layout_parse order rorder ids st fuel top w box bs ss = Ok (w', out) -> Forall2 written_as out (sp_blocks p) ->
  document_docx tpl [p] = Some (secs, body) -> forall g, In g (flat_map ditem_text body) -> from_page (text_of bs) (w_shapes w) g.
Proof.
  intros Ho E W D g Hg. apply (document_incl tpl [p] secs body D) in Hg. cbn [flat_map] in Hg. rewrite app_nil_r in Hg. rewrite (written_all _ _ W) in Hg.
  apply (C66_nothing_invented order rorder ids st fuel top w box bs ss w' out Ho E). exact Hg.
Qed.
Print Assumptions C70_from_page.
(** And all are there, in the order of the layout, if its tables are regular. *)
Theorem C70_layout_text out tpl p : Forall2 written_as out (sp_blocks p) -> (forall b, In b (sp_blocks p) -> regular b) ->
  exists body, document_docx tpl [p] = Some ([sp_section p], body) /\ flat_map ditem_text body = text_of out.
Proof.
  intros W R. destruct (document_written tpl [p]) as (body & E & _ & _ & T & _); [discriminate|intros q b [<-|[]]; apply R|]. exists body. split; [exact E|].
  rewrite <- (written_all _ _ W). inversion T as [|content ? contents ? T1 T2 Es]; subst. inversion T2; subst. rewrite <- T1.
  assert (N : forall l cur, dsections cur l <> []) by (clear; induction l as [|d l IH]; intros cur; cbn; [discriminate|destruct (is_section_break d); [discriminate|apply IH]]).
  assert (C : forall l cur content, dsections cur l = [content] -> content = cur ++ l).
  { clear - N. induction l as [|d l IH]; intros cur content E; cbn in E; [injection E as <-; rewrite app_nil_r; reflexivity|]. destruct (is_section_break d).
    - injection E as _ E. exfalso. exact (N _ _ E).
    - rewrite (IH _ _ E), <- app_assoc. reflexivity. }
  symmetry in Es. rewrite (C _ _ _ Es). reflexivity.
Qed.
Print Assumptions C70_layout_text.
(** A page of plain text (C66_plain_page): its docx has exactly its characters and pictures, formats may have been added. *)
Theorem C70_plain_page order rorder ids st fuel (top : bool) w page ts ss : (forall l, Permutation l (order l)) ->
  (forall t, In t ts -> proper (b_bbox t) /\ b_lines t <> [] /\ (forall l, In l (b_lines t) -> box (ln_bbox l) /\ good_line l) /\
     flowing order (flow_tol st) (separate st) (FText t) /\ ~ shaded (map shade_of (shapes_at w (ls_fills ss))) (FText t)) ->
  (forall i, ~ in_line_at (map FText ts) i) -> ls_strokes ss = [] ->
  (top = true -> exists e, let elems := map ln_bbox (flat_map b_lines ts) ++ map sh_bbox (shapes_at w (ls_all ss)) in
     (forall x, In x elems -> box x) /\ In e elems /\ spanning page e /\ ~ above_columns page elems e /\ ~ below_columns page elems e) ->
  exists w' out, layout_parse order rorder ids st (S fuel) top w page (map LText ts) ss = Ok (w', out) /\
    forall tpl p, Forall2 written_as out (sp_blocks p) -> exists body, document_docx tpl [p] = Some ([sp_section p], body) /\
      exists text, Permutation (text_of (map LText ts)) text /\ only_styles_added text (flat_map ditem_text body).
Proof.
  intros Ho H1 H2 H3 H4. destruct (C66_plain_page order rorder ids st fuel top w page ts ss Ho H1 H2 H3 H4) as (w' & out & E & Pl & Pm & _). exists w', out. split; [exact E|].
  intros tpl p W. destruct (C70_layout_text out tpl p W) as (body & D & T).
  - assert (R : forall b s, written_as b s -> is_ltable b = false -> regular s) by (intros b s [] Hb; [constructor|discriminate]).
    clear - W Pl R. induction W as [|b s bs ss Hw _ IH]; intros x Hx; [destruct Hx|]. destruct Hx as [<-|Hx]; [apply (R b s Hw), Pl; left; reflexivity|]. apply IH; [intros y Hy; apply Pl; right; exact Hy|exact Hx].
  - exists body. split; [exact D|]. rewrite T. exact Pm.
Qed.
Print Assumptions C70_plain_page.

(* ------------------------------------------------------------------ *)
(** * Concrete documents *)
Definition tr_text (k : Z) : sblock := ST (mkSText (mkRect 0 0 100 10) fresh_para 0 0 10 [ly_line k 1 0 0 100 10] [false]).
Definition tr_cell (m n : nat) (bs : list sblock) : scell := (Some (mkBcell (mkRect 0 0 10 10) None (0, 0, 0, 0)%Z (1, 1, 1, 1)%Q (m, n)), false, bs).
Definition tr_none : scell := (None, false, []).
(** A table of one row and two columns, in a cell over two rows of another; two tables in a row. *)
Definition tr_inner : sblock := STable (mkTP 0 0 true) [(10%Q, [tr_cell 1 1 [tr_text 3]; tr_cell 1 1 []])].
Definition tr_outer : sblock := STable (mkTP 2 5 true) [(10%Q, [tr_cell 2 1 [tr_text 2; tr_inner; tr_inner]; tr_cell 1 1 [tr_text 4]]); (10%Q, [tr_none; tr_cell 1 1 [tr_text 5]])].
Definition tr_page (bs : list sblock) : spage := mkSPage (DocxModel.mkSection 600 800 []) bs [].
Definition tr_letters (l : list (glyph * list style)) : list Z := flat_map (fun g => match fst g with GChar c _ => [ch_c c] | GImage _ _ => [] end) l.
Lemma tr_reg1 : TableSpec.partition 1 2 (fun i j => (i, j, 1, 1)).
Proof. intros p q Hp Hq. split; [cbn; lia|]. intros p' q' H. cbn in H. repeat split; try lia. assert (p' = p) by lia. assert (q' = q) by lia. subst. reflexivity. Qed.
Definition tr_reg (p q : nat) : region := match q with 0 => (0, 0, 2, 1) | _ => (p, q, 1, 1) end.
Lemma tr_reg2 : TableSpec.partition 2 2 tr_reg.
Proof.
  intros p q Hp Hq. destruct p as [|[|p]]; [| |lia]; (destruct q as [|[|q]]; [| |lia]); (split; [cbn; lia|]); intros p' q' H; cbn in H; (split; [lia|]); (split; [lia|]);
    destruct p' as [|[|p']]; try lia; destruct q' as [|[|q']]; try lia; reflexivity.
Qed.
Lemma tr_regular1 : regular tr_inner.
Proof.
  apply (regular_table _ _ 1 2 (fun i j => (i, j, 1, 1))); [lia|apply tr_reg1| | |].
  - split; [reflexivity|]. intros i h cells E. destruct i as [|i]; [|destruct i; discriminate E]. injection E as <- <-. split; [reflexivity|]. intros j info v bs E. destruct j as [|[|j]]; [| |destruct j; discriminate E]; injection E as <- <- <-; reflexivity.
  - intros h cells [E|[]]. injection E as <- <-. discriminate.
  - intros h cells info v bs b [E|[]] H2 H3. injection E as <- <-. destruct H2 as [E|[E|[]]]; injection E as <- <- <-; [destruct H3 as [<-|[]]; constructor|destruct H3].
Qed.
Lemma tr_regular : regular tr_outer.
Proof.
  apply (regular_table _ _ 2 2 tr_reg); [lia|apply tr_reg2| | |].
  - split; [reflexivity|]. intros i h cells E. destruct i as [|[|i]]; [| |destruct i; discriminate E]; injection E as <- <-; (split; [reflexivity|]); intros j info v bs E; (destruct j as [|[|j]]; [| |destruct j; discriminate E]); injection E as <- <- <-; try reflexivity.
    split; [discriminate|split; reflexivity].
  - intros h cells [E|[E|[]]]; injection E as <- <-; discriminate.
  - intros h cells info v bs b [E|[E|[]]] H2 H3; injection E as <- <-; destruct H2 as [E|[E|[]]]; injection E as <- <- <-; repeat (destruct H3 as [<-|H3]; [first [apply tr_regular1 | constructor]|]); destruct H3.
Qed.
Example C70_nonvacuous : exists body, document_docx (DocxModel.mkSection 1 1 []) [tr_page [tr_text 1; tr_outer; tr_text 6]; tr_page [tr_text 7]] = Some ([DocxModel.mkSection 600 800 []; DocxModel.mkSection 600 800 []], body) /\
  well_formed body /\ map (fun c => tr_letters (flat_map ditem_text c)) (dsections [] body) = [[1; 2; 3; 3; 4; 5; 6]; [7]]%Z.
Proof.
  destruct (C70_document (DocxModel.mkSection 1 1 []) [tr_page [tr_text 1; tr_outer; tr_text 6]; tr_page [tr_text 7]]) as (body & E & Wf & _ & T & _).
  - discriminate.
  - intros p b [<-|[<-|[]]] Hb; cbn in Hb; [destruct Hb as [<-|[<-|[<-|[]]]]|destruct Hb as [<-|[]]]; try constructor. apply tr_regular.
  - exists body. split; [exact E|]. split; [exact Wf|].
    inversion T as [|c1 ? cs ? T1 T2 Es]; subst. inversion T2 as [|c2 ? cs2 ? T3 T4]; subst. inversion T4; subst. cbn [map]. rewrite T1, T3. reflexivity.
Qed.
(** A table whose cells overlap is written without an error, but a cell removes the text of another: text 1 is lost. *)
Theorem C70_overlap_refuted : exists body, document_docx (DocxModel.mkSection 1 1 []) [tr_page [STable (mkTP 0 0 true) [(10%Q, [tr_cell 1 2 [tr_text 1]; tr_cell 1 1 [tr_text 2]])]]] = Some ([DocxModel.mkSection 600 800 []], body) /\
  tr_letters (flat_map ditem_text body) = [2]%Z.
Proof. eexists. split; vm_compute; reflexivity. Qed.
Print Assumptions C70_overlap_refuted.
(** A page as parsed and as written. *)
Example C70_layout_nonvacuous : exists w out, ly_parse [] (map LText ly_plain) no_shapes = Ok (w, out) /\
  Forall2 written_as out [ST (mkSText rect0 fresh_para 0 0 10 [ly_line 1 1 50 50 100 60] [false]);
    ST (mkSText rect0 fresh_para 0 0 10 [ly_line 2 2 50 100 250 120; ly_line 3 2 50 130 200 150] [true; false]); ST (mkSText rect0 fresh_para 0 0 10 [ly_line 4 3 50 200 100 210] [false])].
Proof. do 2 eexists. split; [vm_compute; reflexivity|]. repeat constructor. Qed.
