(** Model of pdf2docx/converter.py and pdf2docx/main.py: page selection,
    the per-page state machine, docx creation on an abstract file system and
    multi-processing. *)
From Coq Require Import String Ascii.
From Verif Require Import PyBase.
Open Scope Z_scope.
Close Scope string_scope.

(* ------------------------------------------------------------------ *)
(** * Page selection *)

(** converter.py:345-355 [Converter._page_indexes].
    [pages] = None models both an omitted and an empty list (both falsy);
    entries are integers ([int(x)] is the identity on them).  [end_]=None is an
    omitted end; [end or pdf_len] also replaces 0 (line 351). *)
Definition page_indexes (start : Z) (end_ : option Z) (pages : list Z) (pdf_len : Z) : list Z :=
  match pages with
  | _ :: _ => filter (fun x => (0 <=? x) && (x <? pdf_len)) pages        (* line 349 *)
  | [] =>
      let e := match end_ with                                            (* line 351 *)
               | None => pdf_len
               | Some v => if v =? 0 then pdf_len else v
               end in
      py_slice (zrange 0 pdf_len) (Some start) (Some e) 1                 (* lines 352-353 *)
  end.

(** main.py:25-29 and 67-71: conversion of 1-based arguments (same code in
    [PDF2DOCX.convert] and [PDF2DOCX.table]). *)
Definition cli_args (zero_based : bool) (start : Z) (end_ : option Z) (pages : list Z)
  : Z * option Z * list Z :=
  if zero_based then (start, end_, pages)
  else (Z.max (start - 1) 0,
        match end_ with
        | None => None
        | Some v => if v =? 0 then Some v else Some (v - 1)
        end,
        match pages with
        | [] => []
        | _ => map (fun i => i - 1) pages
        end).

(** main.py:11-33: the pages selected by the command line. *)
Definition cli_page_indexes (zero_based : bool) start end_ pages pdf_len : list Z :=
  let '(s, e, ps) := cli_args zero_based start end_ pages in
  page_indexes s e ps pdf_len.

(* ------------------------------------------------------------------ *)
(** * Converter state machine *)

Section Pages.
(** Content of a parsed page (blocks, shapes, size, margin). *)
Variable C : Type.

(** What one call of [Page.parse] does (Page.py:143-156), as decided by the
    source page and the external libraries:
    - [FailSource]: [raw_dict] raises before [restore] touched the page;
    - [FailRestore c]: [restore] raises after changing the content (the
      finalized flag is set only at its end, Page.py:138);
    - [FailParse c]: exception after [_finalized = False] (Page.py:215);
    - [Done c]: success, [_finalized = True] (Page.py:154). *)
Inductive outcome := FailSource | FailRestore (c : C) | FailParse (c : C) | Done (c : C).

(** Page.py:40-51: [id], [_finalized] and everything else as [C]. *)
Record page := mkPage { p_id : Z; p_final : bool; p_content : C }.

(** Page.py:143-156 + 123-140 + 212-216.  [raw_dict] carries
    [id = fitz_page.number] (RawPage.py:48), which is the position [k] of the
    page in the document. *)
Definition page_parse (k : nat) (o : outcome) (pg : page) : page :=
  match o with
  | FailSource => pg
  | FailRestore c => mkPage (Z.of_nat k) (p_final pg) c
  | FailParse c => mkPage (Z.of_nat k) false c
  | Done c => mkPage (Z.of_nat k) true c
  end.

(** converter.py:31: one [Page] per source page; [c0] is the empty layout. *)
Definition fresh (n : nat) (c0 : C) : list page := repeat (mkPage (-1) false c0) n.

(** One iteration of converter.py:77-82; an IndexError of [self._pages[idx]] is
    raised inside the [try] and swallowed as well. *)
Definition parse_one (st : list page) (idx : Z) (o : outcome) : list page :=
  match norm_index (zlen st) idx with
  | None => st
  | Some k => update k (page_parse k o) st
  end.

(** converter.py:75: [page_indexes if page_indexes else range(len(self._pages))]. *)
Definition parse_indexes (n : Z) (ix : list Z) : list Z :=
  match ix with [] => zrange 0 n | _ => ix end.

(** converter.py:65-84 [Converter.parse].  [orc i idx] is the outcome of the
    [i]-th iteration (on page index [idx]). *)
Fixpoint parse_loop (orc : nat -> Z -> outcome) (i : nat) (ix : list Z) (st : list page) : list page :=
  match ix with
  | [] => st
  | idx :: t => parse_loop orc (S i) t (parse_one st idx (orc i idx))
  end.
Definition parse (orc : nat -> Z -> outcome) (ix : list Z) (st : list page) : list page :=
  parse_loop orc O (parse_indexes (zlen st) ix) st.

(** A created document: the pages in creation order, with a flag telling
    whether [page.make_docx] finished or raised (converter.py:115-118). *)
Record docpage := mkDocPage { d_content : C; d_id : Z; d_complete : bool }.
Definition document := list docpage.

(** converter.py:97-118: the document built by [make_docx]; [None] models the
    exception 'No parsed pages' (line 102).  [emit] tells which pages are made
    without exception. *)
Definition build_docx (emit : page -> bool) (st : list page) : option document :=
  match filter p_final st with
  | [] => None
  | parsed => Some (map (fun pg => mkDocPage (p_content pg) (p_id pg) (emit pg)) parsed)
  end.

(** converter.py:124-130 [Converter.store] (the page list only). *)
Definition store (st : list page) : list (Z * C) :=
  map (fun pg => (p_id pg, p_content pg)) (filter p_final st).

(** One entry of stored data: optional id (default -1, converter.py:136), the
    content, and whether [Page.restore] completes ([true]) or raises after
    changing the content ([false]). *)
Record stored := mkStored { s_id : option Z; s_content : C; s_ok : bool }.

(** Page.py:123-140. *)
Definition page_restore (s : stored) (pg : page) : page :=
  mkPage (match s_id s with None => -1 | Some i => i end)
         (if s_ok s then true else p_final pg) (s_content s).

(** converter.py:133-137 [Converter.restore]; the boolean is [true] when the
    loop completed without exception. *)
Fixpoint restore (data : list stored) (st : list page) : list page * bool :=
  match data with
  | [] => (st, true)
  | s :: t =>
      match norm_index (zlen st) (match s_id s with None => -1 | Some i => i end) with
      | None => (st, false)                                   (* IndexError propagates *)
      | Some k =>
          let st' := update k (page_restore s) st in
          if s_ok s then restore t st' else (st', false)
      end
  end.

(** API calls on one [Converter] (sequential mode). *)
Inductive op :=
| OpParse (ix : list Z) (orc : nat -> Z -> outcome)
| OpConvert (start : Z) (end_ : option Z) (pages : list Z)
            (orc : nat -> Z -> outcome) (emit : page -> bool)
| OpExtract (start : Z) (end_ : option Z) (pages : list Z) (orc : nat -> Z -> outcome)
| OpMakeDocx (emit : page -> bool)
| OpStore
| OpRestore (data : list stored).

Inductive out :=
| RNone                          (* returned self / None *)
| RRaise                         (* an exception reached the caller *)
| RDoc (d : document)            (* a docx with this content was saved *)
| RTables (ts : list C)          (* contents of the pages whose tables are returned, in order *)
| RData (d : list (Z * C)).

(** converter.py:65-84, 87-121, 124-137, 183-239, 242-275.  [extract_tables]
    returns the concatenation of the tables of these pages (lines 262-265). *)
Definition step (st : list page) (o : op) : list page * out :=
  match o with
  | OpParse ix orc => (parse orc ix st, RNone)
  | OpConvert s e ps orc emit =>
      let st' := parse orc (page_indexes s e ps (zlen st)) st in
      (st', match build_docx emit st' with None => RRaise | Some d => RDoc d end)
  | OpExtract s e ps orc =>
      let st' := parse orc (page_indexes s e ps (zlen st)) st in
      (st', RTables (map p_content (filter p_final st')))
  | OpMakeDocx emit =>
      (st, match build_docx emit st with None => RRaise | Some d => RDoc d end)
  | OpStore => (st, RData (store st))
  | OpRestore data => let '(st', ok) := restore data st in (st', if ok then RNone else RRaise)
  end.

Definition run (st : list page) (ops : list op) : list page :=
  fold_left (fun s o => fst (step s o)) ops st.

(* ------------------------------------------------------------------ *)
(** * Indexing: converter.py:34-50 [Converter.__getitem__] *)

(** Integer index: [None] is IndexError (lines 44-50). *)
Definition getitem_int (st : list page) (i : Z) : option page := py_get st i.

(** Slice index (lines 36-42), [step] non-zero. *)
Definition getitem_slice (st : list page) (start stop : option Z) (step : Z) : list page :=
  let num := zlen st in
  let stop' := match stop with
               | None => num
               | Some v => if num <? v then num else v
               end in
  let pages := flat_map (fun i => match py_get st i with Some p => [p] | None => [] end)
                        (zrange 0 stop') in
  py_slice pages start stop step.

(* ------------------------------------------------------------------ *)
(** * Multi-processing *)

(** converter.py:329-337: the page indexes of worker [idx].  [int(n/cpu)] is
    the integer quotient (float rounding ignored). *)
Definition segment (idx cpu s e : Z) : list Z :=
  let num_pages := Z.max 0 (e + 1 - s) in
  let seg_size := num_pages / cpu + 1 in
  let seg_from := idx * seg_size in
  let seg_to := Z.min (seg_from + seg_size) num_pages in
  map (fun i => s + i) (zrange seg_from seg_to).

(** converter.py:311-342: what worker [idx] stores in its json file; [n] pages,
    [c0] empty layout, [orc] the page parser. *)
Definition worker_pages (n : nat) (c0 : C) (orc : nat -> Z -> outcome) (idx cpu s e : Z) : list (Z * C) :=
  store (parse orc (segment idx cpu s e) (fresh n c0)).

Definition zmin_list (x : Z) (l : list Z) : Z := fold_left Z.min l x.
Definition zmax_list (x : Z) (l : list Z) : Z := fold_left Z.max l x.

(** converter.py:278-307 without the file system (see [mp_files] below):
    [None] is the ValueError of [min([])] (line 291).  [rt] is the effect of
    the json round trip on a page content.  Workers use the same outcomes
    [orc] for a page whatever its position. *)
Definition mp_restore (n : nat) (c0 : C) (orc : Z -> outcome) (rt : C -> C) (cpu : Z)
           (sel : list Z) (st : list page) : option (list page) :=
  match sel with
  | [] => None
  | x :: t =>
      let s := zmin_list x t in
      let e := zmax_list x t in
      Some (fold_left
              (fun st i =>
                 fst (restore (map (fun d => mkStored (Some (fst d)) (rt (snd d)) true)
                                   (worker_pages n c0 (fun _ => orc) i cpu s e)) st))
              (zrange 0 cpu) st)
  end.
End Pages.

Arguments FailSource {C}.
Arguments FailRestore {C} c.
Arguments FailParse {C} c.
Arguments Done {C} c.
Arguments mkPage {C} p_id p_final p_content.
Arguments p_id {C} p.
Arguments p_final {C} p.
Arguments p_content {C} p.
Arguments mkDocPage {C} d_content d_id d_complete.
Arguments d_content {C} d.
Arguments d_id {C} d.
Arguments d_complete {C} d.
Arguments mkStored {C} s_id s_content s_ok.
Arguments page_parse {C} k o pg.
Arguments parse_one {C} st idx o.
Arguments parse_loop {C} orc i ix st.
Arguments parse {C} orc ix st.
Arguments build_docx {C} emit st.
Arguments store {C} st.
Arguments restore {C} data st.
Arguments fresh {C} n c0.
Arguments step {C} st o.
Arguments run {C} st ops.
Arguments OpParse {C}. Arguments OpConvert {C}. Arguments OpExtract {C}.
Arguments OpMakeDocx {C}. Arguments OpStore {C}. Arguments OpRestore {C}.
Arguments RNone {C}. Arguments RRaise {C}. Arguments RDoc {C}.
Arguments RTables {C}. Arguments RData {C}.
Arguments getitem_int {C}. Arguments getitem_slice {C}.
Arguments worker_pages {C}. Arguments mp_restore {C}.

(* ------------------------------------------------------------------ *)
(** * Output file *)

Fixpoint prefixb (p s : list ascii) : bool :=
  match p, s with
  | [], _ => true
  | a :: p', b :: s' => Ascii.eqb a b && prefixb p' s'
  | _ :: _, [] => false
  end.
(** Python [s.replace(old, new)] for non-empty [old]: leftmost non-overlapping
    occurrences ([skip] characters of an occurrence are still to be dropped).
    Characters are bytes (UTF-8); the pattern is ASCII so replacing on bytes and
    on code points agree. *)
Fixpoint py_replace (old new : list ascii) (skip : nat) (s : list ascii) : list ascii :=
  match s with
  | [] => []
  | c :: t =>
      match skip with
      | S k => py_replace old new k t
      | O => if prefixb old (c :: t) then new ++ py_replace old new (pred (length old)) t
             else c :: py_replace old new O t
      end
  end.
(** [self.filename_pdf.replace('.pdf', '.docx')] (converter.py:105). *)
Definition replace_pdf (s : list ascii) : list ascii :=
  py_replace ["."; "p"; "d"; "f"]%char ["."; "d"; "o"; "c"; "x"]%char 0 s.

(** converter.py:105. *)
Definition out_path (docx_filename : option (list ascii)) (filename_pdf : list ascii) : list ascii :=
  match docx_filename with
  | Some (c :: t) => c :: t
  | _ => replace_pdf filename_pdf
  end.

Section Files.
Variable doc : Type.
(** Content of a file: some earlier content, a partially written docx, or a
    complete docx. *)
Inductive file := FOther (n : N) | FPartial | FDocx (d : doc).
Definition path := list ascii.
Definition fs := path -> option file.
Definition path_eqb (a b : path) : bool := if list_eq_dec ascii_dec a b then true else false.
Definition fs_set (f : fs) (p : path) (v : option file) : fs :=
  fun q => if path_eqb q p then v else f q.

Inductive fstep := SRemove (p : path) | SCreate (p : path) | SFinish (p : path) (d : doc).
Definition do_fstep (f : fs) (s : fstep) : fs :=
  match s with
  | SRemove p => fs_set f p None
  | SCreate p => fs_set f p (Some FPartial)
  | SFinish p d => fs_set f p (Some (FDocx d))
  end.
(** converter.py:104-121: the file-system steps of [make_docx] in program
    order; [save] (line 121) creates the zip archive and then completes it. *)
Definition make_docx_steps (f : fs) (p : path) (built : option doc) : list fstep :=
  match built with
  | None => []                                               (* raise, line 102 *)
  | Some d => (match f p with Some _ => [SRemove p] | None => [] end)   (* line 106 *)
              ++ [SCreate p; SFinish p d]                    (* line 121 *)
  end.
(** File system after the first [k] steps (a crash point), [k] beyond the end
    is a completed call. *)
Definition after_crash (f : fs) (p : path) (built : option doc) (k : nat) : fs :=
  fold_left do_fstep (firstn k (make_docx_steps f p built)) f.
Definition make_docx (f : fs) (p : path) (built : option doc) : fs :=
  fold_left do_fstep (make_docx_steps f p built) f.
End Files.
Arguments FOther {doc}. Arguments FPartial {doc}. Arguments FDocx {doc}.
Arguments SRemove {doc}. Arguments SCreate {doc}. Arguments SFinish {doc}.
Arguments fs_set {doc}. Arguments do_fstep {doc}.
Arguments make_docx_steps {doc}. Arguments after_crash {doc}. Arguments make_docx {doc}.
