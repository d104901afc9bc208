(** Model of the page margin (page/Page.py:244-272), the working area
    (Page.py:89-108) and the conversion parameters (Page.py:58-86, 143-156,
    converter.py:65-84,242-265). *)
From Verif Require Export GeomModel.
From Coq Require Export String.
Open Scope Q_scope.

(** (left, right, top, bottom). *)
Record margin := mkMargin { m_left : Q; m_right : Q; m_top : Q; m_bottom : Q }.
(** constants.py: ITP = 72.0. *)
Definition ITP : Q := 72.
(** Page.py:244-272 [_cal_margin]; the page box is (0, 0, width, height), Page.py:90. *)
Definition cal_margin (blocks shapes : list elem) (width height factor_top factor_bottom : Q) : margin :=
  match blocks, shapes with
  | [], [] => mkMargin ITP ITP ITP ITP
  | _, _ =>
      let r := runion (coll_bbox blocks) (coll_bbox shapes) in
      let left := qmax (rx0 r - 0) 0 in
      let right := qmax (width - rx1 r - MINOR_DIST) 0 in
      let top := qmax (ry0 r - 0) 0 * factor_top in
      let bottom := qmax (height - ry1 r) 0 * factor_bottom in
      mkMargin (qmin ITP (round1 left)) (qmin ITP (round1 right)) (qmin ITP (round1 top)) (qmin ITP (round1 bottom))
  end.
(** Page.py:103-108 [working_bbox]. *)
Definition working_bbox (width height : Q) (m : margin) : rect :=
  mkRect (0 + m_left m) (0 + m_top m) (width - m_right m) (height - m_bottom m).

(* ------------------------------------------------------------------ *)
(** Python dictionaries with string keys: association lists, first match counts;
    assignment to an existing key replaces its value in place. *)
Inductive value := VBool (b : bool) | VNum (q : Q) | VOther (n : nat).
Definition dict := list (string * value).
Fixpoint dget (d : dict) (k : string) : option value :=
  match d with [] => None | (k', v) :: t => if String.eqb k k' then Some v else dget t k end.
Fixpoint dset (d : dict) (k : string) (v : value) : dict :=
  match d with
  | [] => [(k, v)]
  | (k', v') :: t => if String.eqb k k' then (k', v) :: t else (k', v') :: dset t k v
  end.
(** [d.update(s)]. *)
Definition dupdate (d s : dict) : dict := fold_left (fun d kv => dset d (fst kv) (snd kv)) s d.

(** Page.py:61-82. *)
Definition default_settings : dict :=
  [ ("debug", VBool false);
    ("connected_border_tolerance", VNum (1 # 2));
    ("max_border_width", VNum 6);
    ("min_border_clearance", VNum 2);
    ("float_image_ignorable_gap", VNum 5);
    ("float_layout_tolerance", VNum (1 # 10));
    ("page_margin_factor_top", VNum (1 # 2));
    ("page_margin_factor_bottom", VNum (1 # 2));
    ("shape_merging_threshold", VNum (1 # 2));
    ("shape_min_dimension", VNum 2);
    ("line_overlap_threshold", VNum (9 # 10));
    ("line_free_space_ratio_threshold", VNum (1 # 10));
    ("line_merging_threshold", VNum 2);
    ("line_separate_threshold", VNum 5);
    ("lines_left_aligned_threshold", VNum 1);
    ("lines_right_aligned_threshold", VNum 1);
    ("lines_center_aligned_threshold", VNum 2);
    ("clip_image_res_ratio", VNum 3);
    ("curve_path_ratio", VNum (1 # 5));
    ("extract_stream_table", VBool false) ]%string.
(** Page.py:58-86 [init_settings]; [None] and the empty dict change nothing. *)
Definition init_settings (s : option dict) : dict :=
  match s with
  | None | Some [] => default_settings
  | Some d => dupdate default_settings d
  end.

(** Settings of the pages of one Converter.  Page.py:49: a new page has the defaults. *)
Definition new_pages (n : nat) : list dict := repeat (init_settings None) n.
(** converter.py:65-84: every selected page is parsed with the settings of this call
    (Page.py:146); whatever happens afterwards in the parser does not change them.
    Indexes are in range (guaranteed by _page_indexes, C01/C02). *)
Definition set_page (ps : list dict) (i : nat) (d : dict) : list dict := update i (fun _ => d) ps.
Definition parse_call (ps : list dict) (call : list nat * option dict) : list dict :=
  let indexes := match fst call with [] => seq 0 (List.length ps) | l => l end in
  fold_left (fun ps i => set_page ps i (init_settings (snd call))) indexes ps.
Definition parse_calls (ps : list dict) (calls : list (list nat * option dict)) : list dict := fold_left parse_call calls ps.
