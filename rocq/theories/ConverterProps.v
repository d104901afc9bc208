(** Property theorems for converter.py and main.py (C01-C13). *)
From Coq Require Import String Ascii.
From Verif Require Import PyBase PyBaseProof ConverterModel ConverterSpec ConverterProof MpModel MpProof ConverterFindings.
Open Scope Z_scope.
Close Scope string_scope.

(** C01: with a non-empty list, the selection is the list without its invalid
    entries: a subsequence with the same multiplicity of each valid index. *)
Theorem C01_explicit_pages_selected : forall start end_ ps n x,
  ps <> [] ->
  Subseq (page_indexes start end_ ps n) ps /\
  count_occ Z.eq_dec (page_indexes start end_ ps n) x =
    (if (0 <=? x) && (x <? n) then count_occ Z.eq_dec ps x else O).
Proof. exact explicit_pages_selected. Qed.
Print Assumptions C01_explicit_pages_selected.
Example C01_nonvacuous : [7; 2; -1; 0; 2] <> [] /\ page_indexes 4 (Some 1) [7; 2; -1; 0; 2] 3 = [2; 0; 2].
Proof. split; [discriminate|reflexivity]. Qed.

(** C02: without list, start/end select a range (negative bounds count from the end). *)
Theorem C02_range_selected : forall start end_ n,
  0 <= n -> end_ <> Some 0 ->
  Increasing (page_indexes start end_ [] n) /\
  forall i, In i (page_indexes start end_ [] n) <->
     0 <= i < n /\ user_bound n start <= i /\
     match end_ with None => True | Some e => i < user_bound n e end.
Proof. exact range_selected. Qed.
Print Assumptions C02_range_selected.
Example C02_nonvacuous : page_indexes 1 (Some 4) [] 10 = [1; 2; 3] /\ page_indexes (-3) (Some (-1)) [] 10 = [7; 8].
Proof. split; reflexivity. Qed.
(** C02 finding: end=0 behaves as if omitted. *)
Theorem C02_end_zero_is_omitted : forall start n,
  0 <= n -> page_indexes start (Some 0) [] n = page_indexes start None [] n.
Proof. exact end_zero_selects_rest. Qed.
Print Assumptions C02_end_zero_is_omitted.
(** Finding: end=0 behaves as if omitted. *)
Theorem C02_end_zero_refuted : exists n i, 0 <= n /\ In i (page_indexes 0 (Some 0) [] n) /\ ~ (i < 0).
Proof. exact end_zero_refuted_l. Qed.
Print Assumptions C02_end_zero_refuted.

(** C03: page numbers (from 1) chosen by the 1-based interface. *)
Theorem C03_one_based_explicit : forall start end_ ps n x,
  ps <> [] ->
  Subseq (map (fun i => i + 1) (cli_page_indexes false start end_ ps n)) ps /\
  count_occ Z.eq_dec (map (fun i => i + 1) (cli_page_indexes false start end_ ps n)) x =
    (if (1 <=? x) && (x <=? n) then count_occ Z.eq_dec ps x else O).
Proof. exact cli_explicit. Qed.
Print Assumptions C03_one_based_explicit.
Theorem C03_one_based_range : forall start end_ n,
  0 <= n -> 1 <= start -> match end_ with None => True | Some e => 2 <= e end ->
  Increasing (cli_page_indexes false start end_ [] n) /\
  forall i, In i (map (fun i => i + 1) (cli_page_indexes false start end_ [] n)) <->
    1 <= i <= n /\ start <= i /\ match end_ with None => True | Some e => i < e end.
Proof. exact cli_range. Qed.
Print Assumptions C03_one_based_range.
Example C03_nonvacuous : cli_page_indexes false 2 (Some 4) [] 10 = [1; 2] /\
  cli_page_indexes false 1 None [3; 11] 10 = [2].
Proof. split; reflexivity. Qed.
Theorem C03_end_one_is_omitted : forall start n,
  cli_page_indexes false start (Some 1) [] n = cli_page_indexes false start None [] n.
Proof. exact cli_end_one. Qed.
Print Assumptions C03_end_one_is_omitted.
(** Finding: with 1-based numbers end=1 behaves as if omitted. *)
Theorem C03_end_one_refuted : exists n i,
  In i (map (fun i => i + 1) (cli_page_indexes false 1 (Some 1) [] n)) /\ ~ (i < 1) /\ ~ (i <= 1).
Proof. exact cli_end_one_refuted_l. Qed.
Print Assumptions C03_end_one_refuted.

(** C04: page [k] only depends on the outcomes for page [k]... *)
Theorem C04_isolated : forall (C : Type) (orc1 orc2 : nat -> Z -> outcome C) ix st k,
  (forall i idx, norm_index (zlen st) idx = Some k -> orc1 i idx = orc2 i idx) ->
  nth_error (parse orc1 ix st) k = nth_error (parse orc2 ix st) k.
Proof. exact @parse_isolated. Qed.
Print Assumptions C04_isolated.
(** ... is the same when other pages are left out of the selection... *)
Theorem C04_drop_other : forall (C : Type) (orc : Z -> outcome C) ix st (keep : Z -> bool) k,
  ix <> [] -> filter keep ix <> [] ->
  (forall idx, norm_index (zlen st) idx = Some k -> keep idx = true) ->
  nth_error (parse (fun _ => orc) (filter keep ix) st) k = nth_error (parse (fun _ => orc) ix st) k.
Proof. exact @parse_drop_other. Qed.
Print Assumptions C04_drop_other.
(** ... and pages not selected are unchanged. *)
Theorem C04_unselected : forall (C : Type) (orc : nat -> Z -> outcome C) ix st k,
  ix <> [] -> (forall idx, In idx ix -> norm_index (zlen st) idx <> Some k) ->
  nth_error (parse orc ix st) k = nth_error st k.
Proof. exact @parse_unselected. Qed.
Print Assumptions C04_unselected.
(** An exception while writing one page leaves the other pages as they are. *)
Theorem C04_write_isolated : forall (C : Type) (st : list (page C)) emit doc,
  snd (step st (OpMakeDocx emit)) = RDoc doc ->
  map (fun p => (d_id p, d_content p, d_complete p)) doc =
  map (fun pg => (p_id pg, p_content pg, emit pg)) (filter p_final st).
Proof. exact @write_isolated. Qed.
Print Assumptions C04_write_isolated.
(** A selected page that parses is finished whatever happens to the others. *)
Example C04_nonvacuous :
  let st := parse (fun _ i => if i =? 1 then FailParse 0 else Done i) [0; 1; 2] (fresh 4 0) in
  map p_final st = [true; false; true; false].
Proof. reflexivity. Qed.

(** C05: a fresh convert writes exactly the selected pages that parse, in document order. *)
Theorem C05_fresh_convert : forall (C : Type) start end_ ps (orc : Z -> outcome C) emit n c0,
  let sel := page_indexes start end_ ps (Z.of_nat n) in
  sel <> [] ->
  let good := filter (fun i => (if in_dec Z.eq_dec i sel then true else false) && succeeded (orc i))
                     (zrange 0 (Z.of_nat n)) in
  match snd (step (fresh n c0) (OpConvert start end_ ps (fun _ => orc) emit)) with
  | RDoc d => good <> [] /\ map d_id d = good /\
              forall p, In p d -> orc (d_id p) = Done (d_content p)
  | RRaise => good = []
  | _ => False
  end.
Proof. exact convert_fresh_l. Qed.
Print Assumptions C05_fresh_convert.
Example C05_nonvacuous :
  exists d, snd (step (fresh 5 0) (OpConvert 0 None [3; 1; 3; 9; 4] (fun _ i => if i =? 4 then FailSource else Done i) (fun _ => true)))
   = RDoc d /\ map d_id d = [1; 3].
Proof. eexists. split; [vm_compute; reflexivity|reflexivity]. Qed.
(** Finding: an empty selection (all page numbers out of range) converts all pages. *)
Theorem C05_empty_selection_refuted : exists n start end_ ps,
  page_indexes start end_ ps (Z.of_nat n) = [] /\
  exists d, snd (step (fresh n 0) (OpConvert start end_ ps (fun _ => ok_orc) (fun _ => true))) = RDoc d
            /\ map d_id d = [0; 1; 2].
Proof. exact empty_selection_refuted_l. Qed.
Print Assumptions C05_empty_selection_refuted.

(** C06: finished pages after any history of API calls. *)
Theorem C06_history_finished : forall (C : Type) n (c0 : C) ops k, (k < n)%nat ->
  finished_at (run (fresh n c0) ops) k = finished (rev (history_events (Z.of_nat n) k ops)).
Proof. exact @history_finished. Qed.
Print Assumptions C06_history_finished.
(** make_docx writes exactly the finished pages, in page order; raises iff there is none. *)
Theorem C06_document_of_state : forall (C : Type) (st : list (page C)) emit (d : C),
  match snd (step st (OpMakeDocx emit)) with
  | RDoc doc =>
      (exists k, (k < length st)%nat /\ finished_at st k = true) /\
      map d_content doc = map (content_at d st) (filter (finished_at st) (seq 0 (length st)))
  | RRaise => forall k, (k < length st)%nat -> finished_at st k = false
  | _ => False
  end.
Proof. exact @make_docx_contents. Qed.
Print Assumptions C06_document_of_state.
(** extract_tables returns the tables of exactly the finished pages, in page order. *)
Theorem C06_tables_of_state : forall (C : Type) (st : list (page C)) start end_ ps orc (d : C),
  let st' := fst (step st (OpExtract start end_ ps orc)) in
  snd (step st (OpExtract start end_ ps orc)) =
    RTables (map (content_at d st') (filter (finished_at st') (seq 0 (length st')))).
Proof. exact @extract_contents. Qed.
Print Assumptions C06_tables_of_state.
Theorem C06_read_only : forall (C : Type) (st : list (page C)) emit,
  fst (step st (OpMakeDocx emit)) = st /\ fst (step st OpStore) = st.
Proof. exact @readonly_ops. Qed.
Print Assumptions C06_read_only.
Theorem C06_monotone : forall (C : Type) n (c0 : C) ops1 ops2 k, (k < n)%nat ->
  finished_at (run (fresh n c0) ops1) k = true ->
  ~ In EBroken (history_events (Z.of_nat n) k ops2) ->
  finished_at (run (fresh n c0) (ops1 ++ ops2)) k = true.
Proof. exact history_monotone_l. Qed.
Print Assumptions C06_monotone.
Example C06_nonvacuous :
  let ops := [OpParse [0; 1] (fun _ i => Done i); OpParse [1] (fun _ i => FailParse 9);
              OpRestore [mkStored (Some 2) 7 true; mkStored None 8 true]; OpStore] in
  map (finished_at (run (fresh 4 0) ops)) [0; 1; 2; 3]%nat = [true; false; true; true].
Proof. reflexivity. Qed.
(** Finding: a second convert of the same Converter also writes the pages of the first. *)
Theorem C06_stale_pages_refuted : exists d,
  let st := run (fresh 2 0) [OpConvert 0 None [0] (fun _ => ok_orc) (fun _ => true)] in
  snd (step st (OpConvert 0 None [1] (fun _ => ok_orc) (fun _ => true))) = RDoc d /\
  page_indexes 0 None [1] 2 = [1] /\ map d_id d = [0; 1].
Proof. exact stale_pages_refuted_l. Qed.
Print Assumptions C06_stale_pages_refuted.

(** C07: default output name. *)
Theorem C07_default_name : forall pieces, pieces <> [] ->
  Forall (fun p => ~ contains_pdf p) pieces ->
  out_path None (glue dot_pdf pieces) = glue dot_docx pieces.
Proof. exact replace_pdf_glue. Qed.
Print Assumptions C07_default_name.
(** Every path has such a decomposition, so C07_default_name covers all paths. *)
Theorem C07_pieces_exist : forall s, exists pieces,
  pieces <> [] /\ Forall (fun p => ~ contains_pdf p) pieces /\ s = glue dot_pdf pieces.
Proof. exact pieces_exist. Qed.
Print Assumptions C07_pieces_exist.
Theorem C07_source_safe : forall pdf, contains_pdf pdf -> out_path None pdf <> pdf.
Proof. exact default_path_differs. Qed.
Print Assumptions C07_source_safe.
Theorem C07_only_output_written : forall (doc : Type) (f : fs doc) p d q,
  make_docx f p (Some d) q = if path_eqb q p then Some (FDocx d) else f q.
Proof. exact @make_docx_effect. Qed.
Print Assumptions C07_only_output_written.
(** A name that is given is used as it is, whatever it looks like: the document is in this file, and no other file changes; an empty name is no name. *)
Theorem C07_given_name : forall (doc : Type) (f : fs doc) name pdf d, name <> [] ->
  make_docx f (out_path (Some name) pdf) (Some d) name = Some (FDocx d) /\
  (forall q, q <> name -> make_docx f (out_path (Some name) pdf) (Some d) q = f q) /\
  out_path (Some []) pdf = out_path None pdf.
Proof.
  intros doc f name pdf d H. assert (E : out_path (Some name) pdf = name) by (destruct name; [contradiction|reflexivity]). rewrite E.
  split; [|split; [|reflexivity]].
  - rewrite (make_docx_effect f name d name). unfold path_eqb. destruct (list_eq_dec ascii_dec name name); [reflexivity|contradiction].
  - intros q Hq. rewrite (make_docx_effect f name d q). unfold path_eqb. destruct (list_eq_dec ascii_dec q name); [contradiction|reflexivity].
Qed.
Print Assumptions C07_given_name.
Example C07_given_ex : out_path (Some (list_ascii_of_string "new.pdf.docx"%string)) (list_ascii_of_string "x/demo.pdf"%string) = list_ascii_of_string "new.pdf.docx"%string.
Proof. reflexivity. Qed.
Example C07_nonvacuous : contains_pdf (list_ascii_of_string "x/demo.pdf"%string) /\
  out_path None (list_ascii_of_string "x/demo.pdf"%string) = list_ascii_of_string "x/demo.docx"%string.
Proof. split; [|reflexivity]. exists (list_ascii_of_string "x/demo"%string), []. reflexivity. Qed.
(** Finding: if the name of the pdf does not contain '.pdf', the default output is the pdf itself, which is deleted. *)
Theorem C07_source_deleted_refuted : exists (pdf : list ascii) (f : fs Z),
  f pdf = Some (FOther 1) /\ make_docx f (out_path None pdf) (Some 7) pdf = Some (FDocx 7).
Proof. exact source_deleted_refuted_l. Qed.
(** Finding: '.pdf' in a directory name is rewritten too. *)
Theorem C07_directory_rewritten_refuted : exists pdf, contains_pdf pdf /\
  out_path None pdf = list_ascii_of_string "a.docx/b.docx"%string /\ pdf = list_ascii_of_string "a.pdf/b.pdf"%string.
Proof. exact directory_rewritten_refuted_l. Qed.
Print Assumptions C07_directory_rewritten_refuted.
Print Assumptions C07_source_deleted_refuted.

(** C08: crash points of make_docx. *)
Theorem C08_crash_states : forall (doc : Type) (f : fs doc) p d k,
  (forall q, q <> p -> after_crash f p (Some d) k q = f q) /\
  (after_crash f p (Some d) k p = f p \/ after_crash f p (Some d) k p = None \/
   after_crash f p (Some d) k p = Some FPartial \/ after_crash f p (Some d) k p = Some (FDocx d)) /\
  ((3 <= k)%nat -> after_crash f p (Some d) k p = Some (FDocx d)).
Proof. exact @crash_states. Qed.
Print Assumptions C08_crash_states.
Theorem C08_nothing_parsed_untouched : forall (doc : Type) (f : fs doc) p k, after_crash f p None k = f.
Proof. exact @crash_none. Qed.
Print Assumptions C08_nothing_parsed_untouched.
(** Finding: a crash between removal and saving leaves neither the old nor the new file. *)
Theorem C08_crash_loses_both_refuted : exists (f : fs Z) p d k,
  f p = Some (FOther 1) /\ after_crash f p (Some d) k p = None.
Proof. exact crash_loses_both_refuted_l. Qed.
Print Assumptions C08_crash_loses_both_refuted.
Example C08_nonvacuous : after_crash (fun _ => Some (FOther 1)) ["o"%char] (Some 7) 3 ["o"%char] = Some (FDocx 7).
Proof. reflexivity. Qed.

(** C09: the workers' segments concatenated are the whole range. *)
Theorem C09_segments_cover : forall cpu s e, 1 <= cpu ->
  flat_map (fun i => segment i cpu s e) (zrange 0 cpu) = zrange s (e + 1).
Proof. exact segments_cover. Qed.
Print Assumptions C09_segments_cover.
Example C09_nonvacuous : map (fun i => segment i 3 2 8) [0; 1; 2] = [[2; 3; 4]; [5; 6; 7]; [8]].
Proof. reflexivity. Qed.

(** C10: exact pages made by multi-processing, and agreement with the sequential mode. *)
Theorem C10_mp_pages_exact : forall (C : Type) n (c0 : C) (orc : Z -> outcome C) rt cpu sel x0 t st',
  1 <= cpu -> sel = x0 :: t -> (forall i, In i sel -> 0 <= i < Z.of_nat n) ->
  mp_restore n c0 orc rt cpu sel (fresh n c0) = Some st' ->
  forall k, (k < n)%nat ->
  nth_error st' k =
  Some (match orc (Z.of_nat k) with
        | Done c =>
            if ((zmin_list x0 t <=? Z.of_nat k) && (Z.of_nat k <=? zmax_list x0 t))
               || existsb (fun i => match segment i cpu (zmin_list x0 t) (zmax_list x0 t) with [] => true | _ => false end)
                          (zrange 0 cpu)
            then mkPage (Z.of_nat k) true (rt c) else mkPage (-1) false c0
        | _ => mkPage (-1) false c0
        end).
Proof. exact @mp_pages_exact. Qed.
Print Assumptions C10_mp_pages_exact.
Theorem C10_mp_agrees_with_sequential : forall (C : Type) n (c0 : C) (orc : Z -> outcome C) rt cpu sel st',
  1 <= cpu -> sel <> [] -> (forall i, In i sel -> 0 <= i < Z.of_nat n) ->
  (forall i j k, In i sel -> In k sel -> i <= j <= k -> In j sel) ->
  (forall i x0 t, 0 <= i < cpu -> sel = x0 :: t -> segment i cpu (zmin_list x0 t) (zmax_list x0 t) <> []) ->
  mp_restore n c0 orc rt cpu sel (fresh n c0) = Some st' ->
  forall k, (k < n)%nat ->
  nth_error st' k =
  option_map (fun pg => if p_final pg then mkPage (p_id pg) true (rt (p_content pg)) else mkPage (-1) false c0)
    (nth_error (parse (fun _ => orc) sel (fresh n c0)) k).
Proof. exact @mp_agrees. Qed.
Print Assumptions C10_mp_agrees_with_sequential.
Theorem C10_segment_empty_iff : forall i cpu s e, 1 <= cpu -> 0 <= i ->
  (segment i cpu s e = [] <-> Z.max 0 (e + 1 - s) <= i * (Z.max 0 (e + 1 - s) / cpu + 1)).
Proof. exact segment_empty_iff. Qed.
Print Assumptions C10_segment_empty_iff.
Example C10_nonvacuous : exists st', mp_restore 8 0 ok_orc (fun c => c) 2 [2; 3; 4; 5] (fresh 8 0) = Some st' /\
  map p_final st' = [false; false; true; true; true; true; false; false].
Proof. eexists. split; [vm_compute; reflexivity|reflexivity]. Qed.
(** Finding: multi-processing also converts the pages between the selected ones. *)
Theorem C10_holes_refuted : exists st', mp_restore 6 0 ok_orc (fun c => c) 2 [0; 5] (fresh 6 0) = Some st' /\
  ~ In 3 [0; 5] /\ finished_at st' 3 = true.
Proof. exact mp_holes_refuted_l. Qed.
Print Assumptions C10_holes_refuted.
(** Finding: with more workers than pages an empty segment makes a worker parse all pages. *)
Theorem C10_empty_segment_refuted : exists st',
  mp_restore 10 0 ok_orc (fun c => c) 4 [0; 1; 2] (fresh 10 0) = Some st' /\
  ~ In 9 [0; 1; 2] /\ finished_at st' 9 = true /\
  finished_at (parse (fun _ => ok_orc) [0; 1; 2] (fresh 10 0)) 9 = false.
Proof. exact mp_empty_segment_refuted_l. Qed.
Print Assumptions C10_empty_segment_refuted.
Theorem C10_empty_selection_raises : forall n (c0 : Z) orc rt cpu st, mp_restore n c0 orc rt cpu [] st = None.
Proof. exact mp_empty_selection_l. Qed.
Print Assumptions C10_empty_selection_raises.

(** C11: schedules and stale files. *)
Theorem C11_schedule_independent : forall (C : Type) (n cpu : nat) (c0 : C) (orc : Z -> outcome C) rt sel x0 t dir0 sched (st : list (page C)) st',
  (1 <= cpu)%nat -> sel = x0 :: t -> (forall i, In i sel -> 0 <= i < Z.of_nat n) -> length st = n ->
  mp_restore n c0 orc rt (Z.of_nat cpu) sel st = Some st' ->
  let data := fun w => worker_pages n c0 (fun _ => orc) (Z.of_nat w) (Z.of_nat cpu) (zmin_list x0 t) (zmax_list x0 t) in
  let fin := run_workers data dir0 sched in
  (forall w, In w sched -> (w < cpu)%nat) ->
  (forall w, (w < cpu)%nat -> mp_pc fin w = 2%nat) ->
  exists dir',
    collect rt cpu 0 (mp_dir fin) st = (st', dir', true) /\
    (forall w, (w < cpu)%nat -> dir' (tmp_name w) = None) /\
    (forall p, (forall w, (w < cpu)%nat -> p <> tmp_name w) -> dir' p = dir0 p).
Proof. exact @mp_schedule_pages. Qed.
Print Assumptions C11_schedule_independent.
Example C11_nonvacuous :
  let data := fun w => worker_pages 4 0 (fun _ => ok_orc) (Z.of_nat w) 2 0 3 in
  let fin := run_workers data (fun _ => Some (TOther 5)) [1; 0; 1; 0]%nat in
  mp_pc fin 0 = 2%nat /\ mp_pc fin 1 = 2%nat /\
  map p_content (fst (fst (collect (fun c => c) 2 0 (mp_dir fin) (fresh 4 0)))) = [100; 101; 102; 103].
Proof. vm_compute. auto. Qed.
Theorem C11_tmp_names_distinct : forall i j, tmp_name i = tmp_name j -> i = j.
Proof. exact tmp_name_inj. Qed.
Print Assumptions C11_tmp_names_distinct.
(** Finding: two jobs in one directory share their temporary files, so one gets the pages of the other. *)
Theorem C11_two_jobs_refuted : exists (dataA dataB : nat -> list (Z * Z)) st,
  let dirA := mp_dir (run_workers dataA (fun _ => None) [0; 0]%nat) in
  let dirB := mp_dir (run_workers dataB dirA [0; 0]%nat) in
  st = fst (fst (collect (fun c => c) 1 0 dirB (fresh 2 0))) /\
  dataA 0%nat = [(0, 11)] /\ finished_at st 0 = false /\ content_at 0 st 1 = 22.
Proof. exact mp_two_jobs_refuted_l. Qed.
Print Assumptions C11_two_jobs_refuted.

(** C12: indexing. *)
Theorem C12_index : forall (C : Type) (st : list (page C)) i,
  getitem_int st i =
    if (0 <=? i) && (i <? zlen st) then nth_error st (Z.to_nat i)
    else if (- zlen st <=? i) && (i <? 0) then nth_error st (length st - Z.to_nat (- i))
    else None.
Proof. exact @getitem_int_spec. Qed.
Print Assumptions C12_index.
Theorem C12_index_error_iff : forall (C : Type) (st : list (page C)) i,
  (getitem_int st i <> None <-> - zlen st <= i < zlen st).
Proof. exact @getitem_int_total. Qed.
Print Assumptions C12_index_error_iff.
Theorem C12_slice_open_stop : forall (C : Type) (st : list (page C)) start stop step,
  match stop with None => True | Some v => zlen st <= v end ->
  getitem_slice st start stop step = py_slice st start stop step.
Proof. exact @getitem_slice_full. Qed.
Print Assumptions C12_slice_open_stop.
Theorem C12_slice_nonnegative : forall (C : Type) (st : list (page C)) start v step,
  0 <= v < zlen st -> 0 < step -> match start with None => True | Some s => 0 <= s end ->
  getitem_slice st start (Some v) step = py_slice st start (Some v) step.
Proof. exact @getitem_slice_prefix. Qed.
Print Assumptions C12_slice_nonnegative.
(** [py_slice] with step 1 is the contiguous sub-list. *)
Theorem C12_py_slice_step1 : forall (A : Type) (l : list A) a b,
  py_slice l a b 1 =
  firstn (Z.to_nat (slice_stop (zlen l) b 1 - slice_start (zlen l) a 1))
         (skipn (Z.to_nat (slice_start (zlen l) a 1)) l).
Proof. exact @py_slice_step1. Qed.
Print Assumptions C12_py_slice_step1.
Example C12_nonvacuous :
  map p_id (getitem_slice (map (fun i => mkPage i true 0) [0; 1; 2; 3; 4]) (Some 1) (Some 4) 2) = [1; 3].
Proof. reflexivity. Qed.
(** Finding: slices with negative bounds or steps differ from Python's. *)
Theorem C12_slice_negative_refuted : exists st : list (page Z),
  getitem_slice st (Some 0) (Some (-1)) 1 <> py_slice st (Some 0) (Some (-1)) 1 /\
  getitem_slice st (Some (-2)) (Some 2) 1 <> py_slice st (Some (-2)) (Some 2) 1 /\
  getitem_slice st (Some 2) (Some 0) (-1) <> py_slice st (Some 2) (Some 0) (-1).
Proof. exact slice_negative_refuted_l. Qed.
Print Assumptions C12_slice_negative_refuted.

(** C13: store / restore. *)
Theorem C13_store_restore : forall (C : Type) (st : list (page C)) c0 k,
  ids_ok st ->
  nth_error (fst (restore (as_stored (store st)) (fresh (length st) c0))) k =
  option_map (fun pg => if p_final pg then mkPage (Z.of_nat k) true (p_content pg) else mkPage (-1) false c0)
             (nth_error st k).
Proof. exact @store_restore_at. Qed.
Print Assumptions C13_store_restore.
Theorem C13_restore_no_error : forall (C : Type) (st : list (page C)) c0,
  ids_ok st -> snd (restore (as_stored (store st)) (fresh (length st) c0)) = true.
Proof. exact @restore_no_error. Qed.
Print Assumptions C13_restore_no_error.
Theorem C13_store_again : forall (C : Type) (st : list (page C)) c0, ids_ok st ->
  store (fst (restore (as_stored (store st)) (fresh (length st) c0))) = store st.
Proof. exact @store_restore_store. Qed.
Print Assumptions C13_store_again.
(** The hypothesis holds after every history of parse/convert/extract/store/make_docx calls. *)
Theorem C13_ids_reachable : forall (C : Type) (ops : list (op C)) n c0,
  Forall no_restore ops -> ids_ok (run (fresh n c0) ops).
Proof. intros C ops n c0 H. exact (run_ids_ok ops _ (fresh_ids_ok n c0) H). Qed.
Print Assumptions C13_ids_reachable.
Example C13_nonvacuous :
  let st := parse (fun _ i => Done (i * 10)) [2; 0] (fresh 4 0) in
  store st = [(0, 0); (2, 20)] /\
  store (fst (restore (as_stored (store st)) (fresh 4 0))) = [(0, 0); (2, 20)].
Proof. split; reflexivity. Qed.
