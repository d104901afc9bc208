(** Property theorems for the docx body (C34, C46, C47). *)
From Verif Require Import DocxModel DocxSpec DocxProof.
From Coq Require Import Lia.
Open Scope nat_scope.

(** C34: a document made of any pages (blocks of any defined type): no two
    tables touch anywhere, the document does not end with a table, there is one
    section per page, and each section shows exactly the text/image blocks and
    tables of its page, in order. *)
Theorem C34_document : forall tpl ps, ps <> [] -> (forall p b, In p ps -> In b (p_blocks p) -> b_type b <> UNDEFINED) ->
  let b := d_body (make_pages tpl ps) in
  no_adjacent_tables b /\ ~ ends_with_table b /\
  Forall2 (fun content p => flat_map shows content = should_show (p_blocks p)) (sections_of [] b) ps.
Proof.
  intros tpl ps Hne Hd. destruct (make_pages_inv tpl ps Hne) as (_ & _ & A & L & F).
  { intros p Hp b Hb. exact (Hd p b Hp Hb). }
  split; [apply adj_spec; exact A|]. split; [apply last_tab_spec; exact L|exact F].
Qed.
Print Assumptions C34_document.
(** C34: the content of a cell shows its blocks in order, has no adjacent tables
    and ends with a paragraph, as Word requires. *)
Theorem C34_cell : forall bs imgs, (forall b, In b bs -> b_type b <> UNDEFINED) ->
  let c := cell_content bs imgs in
  flat_map shows c = should_show bs /\ no_adjacent_tables c /\
  (exists l k fs, c = l ++ [Para k fs]) /\ (bs <> [] -> flat_map images_of c = imgs).
Proof. intros bs imgs Hd. exact (cell_spec bs imgs Hd). Qed.
Print Assumptions C34_cell.
(** C34: the dummy paragraph before a table: present iff a space of at least
    0.7pt is wanted or the previous block was a table; its height is the space
    rounded down to a tenth of a point. *)
Theorem C34_dummy_paragraph : forall t pre b, exists h,
  make_table InDoc t pre b = b ++ (if qle (7 # 10) (b_before t) || pre then [Para (PDummy h) []] else []) ++ [Tab (b_id t)] /\
  (0 <= b_before t -> 0 <= h <= b_before t /\ b_before t < h + (1 # 10))%Q.
Proof.
  intros t pre b. exists (dummy_height (b_before t)). split; [|apply dummy_height_bound].
  unfold make_table, add_table, add_paragraph. destruct (qle (7 # 10) (b_before t) || pre); cbn [app]; rewrite <- ?app_assoc; reflexivity.
Qed.
Print Assumptions C34_dummy_paragraph.
Definition tb (i : nat) (t : btype) : block := mkBlock i t 0.
Definition sec (w : Q) : section := mkSection w 792 [72; 72; 72; 72]%Q.
Example C34_nonvacuous :
  let ps := [mkPage (sec 612) [tb 1 TEXT; tb 2 LATTICE_TABLE; tb 3 STREAM_TABLE] [7]; mkPage (sec 500) [tb 4 LATTICE_TABLE; tb 5 IMAGE] [8; 9]] in
  (forall p b, In p ps -> In b (p_blocks p) -> b_type b <> UNDEFINED) /\
  map (flat_map shows) (sections_of [] (d_body (make_pages (sec 1) ps))) = [[(1, false); (2, true); (3, true)]; [(4, true); (5, false)]] /\
  length (d_body (make_pages (sec 1) ps)) = 9.
Proof.
  cbn. split; [|split; reflexivity].
  intros p b [<-|[<-|[]]]; cbn; intuition (subst; discriminate).
Qed.
(** Finding: k tables at the end of a page are followed by k extra paragraphs, not one. *)
Theorem C34_one_trailing_paragraph_refuted : exists bs, (forall b, In b bs -> b_type b <> UNDEFINED) /\
  blocks_make_docx InDoc bs [] [] =
    [Tab 1; Para (PDummy (dummy_height 0)) []; Tab 2; Para (PDummy (dummy_height 0)) []; Tab 3; Para PTrail []; Para PTrail []; Para PTrail []].
Proof. exists [tb 1 LATTICE_TABLE; tb 2 LATTICE_TABLE; tb 3 LATTICE_TABLE]. split; [cbn; intuition (subst; discriminate)|reflexivity]. Qed.
Print Assumptions C34_one_trailing_paragraph_refuted.
Theorem C34_trailing_count : forall bs ts b, (forall x, In x ts -> is_table x || is_float x = true) ->
  (bs = [] \/ exists l x, bs = l ++ [x] /\ is_text_image x = true) ->
  add_trailing (rev (bs ++ ts)) b = b ++ repeat (Para PTrail []) (length (filter is_table ts)).
Proof.
  intros bs ts b H1 H2. rewrite rev_app_distr. rewrite trailing_count.
  - do 2 f_equal. clear. induction ts as [|x t IH]; [reflexivity|]. cbn. rewrite filter_app, app_length, IH. cbn.
    destruct (is_table x); cbn; lia.
  - intros x Hx. apply H1. apply in_rev. exact Hx.
  - destruct H2 as [->|(l & x & -> & Hx)]; [exact I|]. rewrite rev_app_distr. exact Hx.
Qed.
Print Assumptions C34_trailing_count.

(** C46: one section per page, in order, with the size and margins of that page. *)
Theorem C46_one_section_per_page : forall tpl ps, ps <> [] -> (forall p b, In p ps -> In b (p_blocks p) -> b_type b <> UNDEFINED) ->
  d_sections (make_pages tpl ps) = map p_section ps /\
  length (sections_of [] (d_body (make_pages tpl ps))) = length ps.
Proof.
  intros tpl ps Hne Hd. destruct (make_pages_inv tpl ps Hne) as (_ & S & _ & _ & F).
  { intros p Hp b Hb. exact (Hd p b Hp Hb). }
  split; [exact S|]. clear - F. induction F; cbn; [reflexivity|]. rewrite IHF. reflexivity.
Qed.
Print Assumptions C46_one_section_per_page.
Example C46_nonvacuous : d_sections (make_pages (sec 1) [mkPage (sec 612) [] []; mkPage (sec 500) [tb 1 TEXT] []; mkPage (sec 400) [] []]) = [sec 612; sec 500; sec 400].
Proof. reflexivity. Qed.

(** C47: every floating image is anchored exactly once, in order. *)
Theorem C47_images_conserved : forall tpl ps, (forall p b, In p ps -> In b (p_blocks p) -> b_type b <> UNDEFINED) ->
  flat_map images_of (d_body (make_pages tpl ps)) = flat_map p_floats ps.
Proof. intros tpl ps Hd. apply images_conserved. intros p Hp b Hb. exact (Hd p b Hp Hb). Qed.
Print Assumptions C47_images_conserved.
(** C47: on its own page, if every page after the first has a text block or table. *)
Theorem C47_images_on_their_page : forall tpl ps, ps <> [] -> (forall p b, In p ps -> In b (p_blocks p) -> b_type b <> UNDEFINED) ->
  (forall p, In p (tl ps) -> should_show (p_blocks p) <> []) ->
  Forall2 (fun content p => flat_map images_of content = p_floats p) (sections_of [] (d_body (make_pages tpl ps))) ps.
Proof. intros tpl ps Hne Hd Hs. apply images_local; [exact Hne| |exact Hs]. intros p Hp b Hb. exact (Hd p b Hp Hb). Qed.
Print Assumptions C47_images_on_their_page.
Example C47_nonvacuous :
  let ps := [mkPage (sec 612) [] [1; 2]; mkPage (sec 500) [tb 4 LATTICE_TABLE] [3]] in
  (forall p, In p (tl ps) -> should_show (p_blocks p) <> []) /\
  map (flat_map images_of) (sections_of [] (d_body (make_pages (sec 1) ps))) = [[1; 2]; [3]].
Proof. cbn. split; [intros p [<-|[]]; discriminate|reflexivity]. Qed.
(** Finding: the images of a page that contains nothing but floating images are
    anchored in the section-break paragraph of the previous page. *)
Theorem C47_image_only_page_refuted : exists ps, (forall p b, In p ps -> In b (p_blocks p) -> b_type b <> UNDEFINED) /\
  map p_floats ps = [[]; [1; 2]] /\
  map (flat_map images_of) (sections_of [] (d_body (make_pages (sec 1) ps))) = [[1; 2]; []].
Proof.
  exists [mkPage (sec 612) [tb 1 TEXT] []; mkPage (sec 612) [] [1; 2]]. split; [|split; reflexivity].
  intros p b [<-|[<-|[]]]; cbn; intuition (subst; discriminate).
Qed.
Print Assumptions C47_image_only_page_refuted.
