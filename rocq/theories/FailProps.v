From Verif Require Import FailSpec DocxProof FailProof.
From Coq Require Import Lia.
Open Scope nat_scope.

(* ------------------------------------------------------------------ *)
(** * C79: pages that cannot be written *)
(** Whatever pages raise while they are written, and wherever - but in a table at the very start of the first page -: each page has its section with its
    size and margins, and its section shows the blocks of the page, in order, all of them or, if the page raised, those up to the block that did;
    floating pictures likewise; no two tables touch; and the document ends with a paragraph unless the last page raised in a block. *)
Theorem C79_others_kept tpl pt pts : ~ in_first_table pt -> (forall q, In q (pt :: pts) -> possible q) ->
  let d := make_pages_try tpl (pt :: pts) in
  d_sections d = map (fun q => p_section (fst q)) (pt :: pts) /\ no_adjacent_tables (d_body d) /\
  Forall2 (fun content q => flat_map shows content = should_show (begun q)) (sections_of [] (d_body d)) (pt :: pts) /\
  flat_map images_of (d_body d) = flat_map begun_floats (pt :: pts) /\
  ((forall l p k, pt :: pts <> l ++ [(p, InBlock k)]) -> ~ ends_with_table (d_body d)).
Proof.
  intros Hn H. cbv zeta. destruct (try_all tpl pt pts (H pt (or_introl eq_refl)) Hn (fun q I => H q (or_intror I))) as (_ & S & A & F & Im & L).
  split; [exact S|]. split; [apply adj_spec; exact A|]. split; [exact F|]. split; [exact Im|]. intros X. apply last_tab_spec. exact (L X).
Qed.
Print Assumptions C79_others_kept.
(** A page that did not raise is complete, whatever happened to the others. *)
Theorem C79_fine_complete tpl pt pts i p : ~ in_first_table pt -> (forall q, In q (pt :: pts) -> possible q) -> nth_error (pt :: pts) i = Some (p, Fine) ->
  let d := make_pages_try tpl (pt :: pts) in
  nth_error (d_sections d) i = Some (p_section p) /\ exists content, nth_error (sections_of [] (d_body d)) i = Some content /\ flat_map shows content = should_show (p_blocks p).
Proof.
  intros Hn H E. cbv zeta. destruct (C79_others_kept tpl pt pts Hn H) as (S & _ & F & _). split.
  - rewrite S. apply (map_nth_error (fun q => p_section (fst q))) in E. exact E.
  - set (ss := sections_of [] (d_body (make_pages_try tpl (pt :: pts)))) in *. clearbody ss. clear S H Hn. revert i E. induction F as [|c q cs qs G _ IH]; intros i E; [destruct i; discriminate E|].
    destruct i as [|i]; [injection E as ->; exists c; split; [reflexivity|exact G]|]. exact (IH i E).
Qed.
Print Assumptions C79_fine_complete.
(** Without trouble this is the writer of C34, C46 and C47. *)
Theorem C79_no_trouble tpl ps : make_pages_try tpl (map (fun p => (p, Fine)) ps) = make_pages tpl ps.
Proof.
  unfold make_pages_try, make_pages. generalize (mkDoc [] [tpl]). induction ps as [|p ps IH]; intros d; [reflexivity|]. cbn [map fold_left]. rewrite IH. reflexivity.
Qed.
Print Assumptions C79_no_trouble.
Definition fl_sec (w : Q) : section := mkSection w 792 [72; 72; 72; 72]%Q.
Definition fl_block (i : nat) (t : btype) : block := mkBlock i t 0.
(** Finding: if the first page raises in a table at its start, the next page takes over its section: there is one section for the two pages, of the size of the
    second, and what was written of the table stands in front of the second page. *)
Theorem C79_first_table_refuted : exists pt q, possible pt /\ possible q /\ snd q = Fine /\ s_width (p_section (fst pt)) = 600%Q /\
  let d := make_pages_try (fl_sec 1) [pt; q] in map s_width (d_sections d) = [400%Q] /\ map (flat_map shows) (sections_of [] (d_body d)) = [[(1, true); (3, false)]].
Proof.
  exists (mkPage (fl_sec 600) [fl_block 1 LATTICE_TABLE; fl_block 2 TEXT] [], InBlock 0), (mkPage (fl_sec 400) [fl_block 3 TEXT] [], Fine).
  split; [|split; [|split; [reflexivity|split; [reflexivity|split; reflexivity]]]].
  - split; [cbn; intuition (subst; discriminate)|]. cbn. intros k E. injection E as <-. eexists. split; reflexivity.
  - split; [cbn; intuition (subst; discriminate)|]. cbn. intros k E. discriminate E.
Qed.
Print Assumptions C79_first_table_refuted.
(** Finding: if the last page raises in a table, the document ends with this table (Word asks for a paragraph after it). *)
Theorem C79_ends_with_table_refuted : exists pt, possible pt /\ ~ in_first_table pt /\ ends_with_table (d_body (make_pages_try (fl_sec 1) [pt])).
Proof.
  exists (mkPage (fl_sec 600) [fl_block 1 TEXT; fl_block 2 LATTICE_TABLE; fl_block 3 TEXT] [], InBlock 1). split; [|split].
  - split; [cbn; intuition (subst; discriminate)|]. cbn. intros k E. injection E as <-. eexists. split; reflexivity.
  - intros (k & x & E & F & _). injection E as <-. discriminate F.
  - exists [Para (PBlock 1) []], 2. reflexivity.
Qed.
Print Assumptions C79_ends_with_table_refuted.
Example C79_nonvacuous :
  let pts := [(mkPage (fl_sec 612) [fl_block 1 TEXT; fl_block 2 LATTICE_TABLE; fl_block 3 TEXT] [7], InBlock 1);
              (mkPage (fl_sec 500) [fl_block 4 TEXT; fl_block 5 IMAGE] [8; 9], Fine);
              (mkPage (fl_sec 400) [fl_block 6 TEXT] [10; 11], InFloat 1); (mkPage (fl_sec 300) [fl_block 12 STREAM_TABLE] [], InBlock 0)] in
  let d := make_pages_try (fl_sec 1) pts in
  ~ in_first_table (hd (mkPage (fl_sec 1) [] [], Fine) pts) /\ (forall q, In q pts -> possible q) /\
  map (flat_map shows) (sections_of [] (d_body d)) = [[(1, false); (2, true)]; [(4, false); (5, false)]; [(6, false)]; [(12, true)]] /\
  map s_width (d_sections d) = [612; 500; 400; 300]%Q /\ flat_map images_of (d_body d) = [8; 9; 10].
Proof.
  cbv zeta. split; [|split; [|split; [reflexivity|split; reflexivity]]].
  - intros (k & x & E & F & _). injection E as <-. discriminate F.
  - intros q [<-|[<-|[<-|[<-|[]]]]]; (split; [cbn; intuition (subst; discriminate)|]); cbn; intros k E; try discriminate E; injection E as <-; eexists; split; reflexivity.
Qed.
