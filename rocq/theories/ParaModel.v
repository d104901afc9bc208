(** Model of the paragraph part of pdf2docx/text/TextBlock.py, Lines.py, Line.py,
    TextSpan.py and common/docx.py: alignment, spacing, tab stops and the content of
    the Word paragraph. *)
From Verif Require Export TextModel.
From Coq Require Export Lqa.
Open Scope Q_scope.

(** share.py:43-58. *)
Inductive align := A_NONE | A_UNKNOWN | A_LEFT | A_CENTER | A_RIGHT | A_JUSTIFY.
Definition align_eqb (a b : align) : bool :=
  match a, b with
  | A_NONE, A_NONE | A_UNKNOWN, A_UNKNOWN | A_LEFT, A_LEFT | A_CENTER, A_CENTER | A_RIGHT, A_RIGHT | A_JUSTIFY, A_JUSTIFY => true
  | _, _ => false
  end.
(** TextBlock.py:61-74 [text_direction] (blocks without lines are not modelled). *)
Definition block_dir (ls : list line) : direction :=
  if existsb (fun l => dir_eqb (ln_dir l) IGNORE) ls then IGNORE
  else match ls with
       | [] => LEFT_RIGHT
       | l :: t => if forallb (fun x => dir_eqb (ln_dir x) (ln_dir l)) t then ln_dir l else LEFT_RIGHT
       end.
(** [bbox[idx0]], [bbox[idx1]] and [f] (TextBlock.py:168). *)
Definition startp (h : bool) (r : rect) : Q := if h then rx0 r else ry1 r.
Definition endp (h : bool) (r : rect) : Q := if h then rx1 r else ry0 r.
Definition dirf (h : bool) : Q := if h then 1 else -1.
Definition lstart (h : bool) (l : line) : Q := startp h (ln_bbox l).
Definition lend (h : bool) (l : line) : Q := endp h (ln_bbox l).
(** max(xs), min(xs). *)
Definition qmaxl (l : list Q) : Q := match l with [] => 0 | x :: t => fold_left qmax t x end.
Definition qminl (l : list Q) : Q := match l with [] => 0 | x :: t => fold_left qmin t x end.
Definition spread (l : list Q) : Q := qabs (qmaxl l - qminl l).

(** TextBlock.py:334-339: a significant gap between two neighbours of the row. *)
Fixpoint wide_gap (h : bool) (sep : Q) (row : list line) : bool :=
  match row with
  | a :: ((b :: _) as t) => qle sep ((lstart h b - lend h a) * dirf h) || wide_gap h sep t
  | _ => false
  end.
(** The first and the last line of a row (rows are never empty). *)
Definition row_first (h : bool) (row : list line) : Q := match row with [] => 0 | l :: _ => lstart h l end.
Fixpoint row_last (h : bool) (row : list line) : Q :=
  match row with [] => 0 | [l] => lend h l | _ :: t => row_last h t end.
Record thresholds := mkThr { th_sep : Q; th_free : Q; th_left : Q; th_right : Q; th_center : Q }.
(** TextBlock.py:311-375 [_internal_alignment]; [Some f]: first_line_space is assigned. *)
Definition internal_alignment (h : bool) (th : thresholds) (rows : list (list line)) : align * option Q :=
  if existsb (wide_gap h (th_sep th)) rows then (A_NONE, None)
  else if (length rows <? 2)%nat then (A_UNKNOWN, None)
  else
    let X0 := map (row_first h) rows in
    let X1 := map (row_last h) rows in
    let X := map (fun r => (row_first h r + row_last h r) / 2) rows in
    let three := (3 <=? length rows)%nat in
    let X0' := if three then tl X0 else X0 in
    let X1' := if three then removelast X1 else X1 in
    let l := qle (spread X0') (th_left th) in
    let r := qle (spread X1') (th_right th) in
    let c := qle (spread X) (th_center th) in
    if l && r then (if three then (A_JUSTIFY, None) else (A_UNKNOWN, None))
    else if l then (A_LEFT, Some (nth 0 X0 0 - nth 1 X0 0))
    else if r then (A_RIGHT, None)
    else if c then (A_CENTER, None)
    else (A_NONE, None).
(** TextBlock.py:378-406 [_external_alignment]: alignment, left/right_space_total. *)
Definition external_alignment (h : bool) (bb container : rect) (tc : Q) : align * Q * Q :=
  let dl := round1 ((startp h bb - startp h container) * dirf h) in
  let dr := round1 ((endp h container - endp h bb) * dirf h) in
  let dc := round1 ((dl - dr) / 2) in
  let dl := qmax dl 0 in
  let dr := qmax dr 0 in
  (if qlt (qabs dc) tc then A_CENTER else if qle (qabs dl) (qabs dr) then A_LEFT else A_RIGHT, dl, dr).

(** The attributes of common/Block.py:18-37 written by the layout step. *)
Record para := mkPara { pa_align : align; pa_left : Q; pa_right : Q; pa_first : Q;
                        pa_left_total : Q; pa_right_total : Q; pa_tabs : list Q }.
(** [set(map(fun, self.lines))]: one entry per value; the order is irrelevant, since
    python-docx keeps tab stops sorted. *)
Fixpoint dedup (l : list Q) : list Q :=
  match l with
  | [] => []
  | x :: t => if existsb (qeq x) t then dedup t else x :: dedup t
  end.
(** constants.py:11. *)
Definition MINOR_DIST : Q := 1.
Definition tab_positions (h : bool) (bb : rect) (ls : list line) : list Q :=
  filter (qle MINOR_DIST) (dedup (map (fun l => round1 ((lstart h l - startp h bb) * dirf h)) ls)).
(** TextBlock.py:151-204 [parse_horizontal_spacing] without the line breaks; [rows] is
    the result of grouping the lines, [p0] the block before. *)
Definition horizontal_spacing (h : bool) (bb container : rect) (th : thresholds) (ls : list line) (rows : list (list line)) (p0 : para) : para :=
  let (ia, first) := internal_alignment h th rows in
  let '(ea, lt, rt) := external_alignment h bb container (th_center th) in
  let a := match ia with A_UNKNOWN => ea | _ => ia end in
  let first := match first with Some f => f | None => pa_first p0 end in
  let '(a, tabs) := match a with A_NONE => (A_LEFT, tab_positions h bb ls) | _ => (a, pa_tabs p0) end in
  match a with
  | A_LEFT => mkPara a lt (qmin lt rt) first lt rt tabs
  | A_RIGHT => mkPara a (qmin lt rt) rt first lt rt tabs
  | A_CENTER => mkPara a 0 0 first lt rt tabs
  | _ => mkPara a lt rt first lt rt tabs
  end.
(** Fresh block: Block.py:23-32. *)
Definition fresh_para : para := mkPara A_UNKNOWN 0 0 0 0 0 [].
(** The whole step: rows from [self.lines.group] (TextBlock.py:323-324), whose set
    iteration order is [order]. *)
Definition parse_horizontal (order : list nat -> list nat) (bb container : rect) (th : thresholds) (ls : list line) (p0 : para) : option para :=
  match group same_row order ls with
  | None => None
  | Some rows => Some (horizontal_spacing (is_horizontal (block_dir ls)) bb container th ls rows p0)
  end.

(* ------------------------------------------------------------------ *)
(** * Line breaks *)
(** Line.py:56-59 and Image.py:45-48: [not line.text.strip()]. *)
Definition span_blank (s : span) : bool := match s with SText t => forallb is_white (ts_text t) | SImage _ _ => false end.
Definition line_blank (l : line) : bool := forallb span_blank (ln_spans l).
(** Lines.py:297-335 [parse_line_break]; [None]: division by the zero width. *)
Definition free_ratio (h : bool) (bb : rect) (p : para) (l : line) : Q :=
  let width := qabs (endp h bb - startp h bb) in
  match pa_align p with
  | A_RIGHT => (qabs (startp h bb - lstart h l) + (pa_left_total p - pa_left p)) / width
  | _ => (qabs (endp h bb - lend h l) + (pa_right_total p - pa_right p)) / width
  end.
Fixpoint line_breaks (h : bool) (bb : rect) (p : para) (free : Q) (ls : list line) : option (list bool) :=
  match ls with
  | [] => Some []
  | [l] => Some [false]
  | l :: ((n :: _) as t) =>
      match line_breaks h bb p free t with
      | None => None
      | Some bs =>
          if same_row l n then Some (false :: bs)
          else if qeq (endp h bb - startp h bb) 0 then None
          else if qlt free (free_ratio h bb p l) then Some (true :: bs)
          else Some (line_blank n :: bs)
      end
  end.

(* ------------------------------------------------------------------ *)
(** * Vertical spacing *)
(** TextBlock.py:223-231: number of physical rows. *)
Fixpoint count_rows (ref : option line) (ls : list line) : nat :=
  match ls with
  | [] => O
  | l :: t => ((if match ref with None => false | Some r => same_row l r end then 0 else 1) + count_rows (Some l) t)%nat
  end.
Definition thickness (h : bool) (r : rect) : Q := hi h r - lo h r.
Definition qnat (n : nat) : Q := inject_Z (Z.of_nat n).
(** TextBlock.py:210-252 [parse_line_spacing]: (before_space, line_space); [None]:
    IndexError for a block without lines. *)
Definition line_spacing (bb : rect) (ls : list line) (before : Q) : option (Q * Q) :=
  let h := is_horizontal (block_dir ls) in
  match ls with
  | [] => None
  | l0 :: _ =>
      let count := count_rows None ls in
      let first := thickness h (ln_bbox l0) in
      let height := thickness h bb in
      let sp := if (1 <? count)%nat then (height - first) / (qnat count - 1) else height in
      let b := before + (first - sp) in
      if qlt b 0 then Some (0, sp + b / qnat count) else Some (b, sp)
  end.

(* ------------------------------------------------------------------ *)
(** * The Word paragraph *)
(** Items written to the paragraph, in order: a span (run or picture), a tab, a break. *)
Inductive item := ISpan (s : span) | ITab | IBreak.
(** docx.py:70-92 [add_stop]: number of tabs; positions in points, not rounded to the
    units of Word. *)
Fixpoint count_tabs (stops : list Q) (pos cur : Q) : nat :=
  match stops with
  | [] => O
  | t :: r => if qlt t cur then count_tabs r pos cur
              else if qlt t pos || qle (qabs (t - pos)) MINOR_DIST then S (count_tabs r pos cur)
              else O
  end.
Definition add_stop (stops : list Q) (pos cur : Q) : nat := if qlt pos MINOR_DIST then O else count_tabs stops pos cur.
(** Tab stops of the paragraph, sorted by python-docx (TextBlock.py:286-287). *)
Definition para_stops (p : para) : list Q :=
  match pa_align p with
  | A_LEFT => sort_key (fun x => [x]) (map (fun t => pa_left p + t) (pa_tabs p))
  | _ => []
  end.
(** Lines.py:338-359 [make_docx] and Line.py:178-181.  [breaks] are the line_break flags. *)
Fixpoint write_lines (h : bool) (bb : rect) (p : para) (cur : Q) (ls : list line) (breaks : list bool) : list item :=
  match ls with
  | [] => []
  | l :: t =>
      let pos := pa_left p + (lstart h l - startp h bb) in
      let tabs := if qlt (pa_left p) pos && negb (match pa_tabs p with [] => true | _ => false end)
                  then repeat ITab (add_stop (para_stops p) pos cur) else [] in
      let cur' := match t with
                  | n :: _ => if same_row l n then pos + qabs (lend h l - startp h bb) else pa_left p
                  | [] => cur
                  end in
      tabs ++ map ISpan (ln_spans l) ++ (if match breaks with b :: _ => b | [] => false end then [IBreak] else []) ++
      write_lines h bb p cur' t (match breaks with _ :: r => r | [] => [] end)
  end.
(** The paragraph of TextBlock.py:255-307.  [wp_exact]: rows are [wp_line] high; else (a picture was added to the paragraph, common/docx.py:201-217,
    Image.py:94-97; of a kind python-docx knows) they are as high as what is in them (line spacing 1.0). *)
Record wordp := mkWordp { wp_align : align; wp_before : Q; wp_after : Q; wp_line : Q;
                          wp_left : Q; wp_right : Q; wp_first : Q; wp_stops : list Q; wp_items : list item; wp_exact : bool }.
Definition is_picture (s : span) : bool := match s with SImage _ _ => true | SText _ => false end.
Definition make_paragraph (bb : rect) (p : para) (before after lsp : Q) (ls : list line) (breaks : list bool) : wordp :=
  mkWordp (match pa_align p with A_LEFT => A_LEFT | A_RIGHT => A_RIGHT | A_CENTER => A_CENTER | _ => A_JUSTIFY end)
    (qmax (round1 before) 0) (qmax (round1 after) 0) (round1 lsp)
    (pa_left p - pa_first p) (pa_right p) (pa_first p) (para_stops p)
    (write_lines (is_horizontal (block_dir ls)) bb p (pa_left p) ls breaks)
    (forallb (fun l => forallb (fun s => negb (is_picture s)) (ln_spans l)) ls).

(* ------------------------------------------------------------------ *)
(** * Font of a run *)
(** TextSpan.py:389-420: what python-docx writes for a span.  [docx_run.superscript] is
    no python-docx property: assigning it writes nothing.  [None]: division by zero. *)
Record runfont := mkRun { rf_bold : bool; rf_italic : bool; rf_superscript : bool; rf_size : Q; rf_scale : option Q }.
Definition run_font (flags : Z) (size : Q) : option runfont :=
  let fs := inject_Z (round_half_even (size * 2)) / 2 in
  if qeq fs 0 then None
  else let scale := size / fs in
       Some (mkRun (Z.testbit flags 4) (Z.testbit flags 1) false fs
                   (if qle (1 # 100) (qabs (scale - 1)) then Some scale else None)).
