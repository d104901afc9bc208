(** Model of pdf2docx/text/Char.py, TextSpan.py, Spans.py, Line.py, Lines.py: splitting
    of spans by style shapes, stripping, clipping and joining. *)
From Verif Require Export ShapeModel GraphModel.
From Coq Require Export Arith.
Open Scope Q_scope.

(** Char.py:19-25: one code point (PyMuPDF delivers one per char) and its box. *)
Record char := mkChar { ch_c : Z; ch_bbox : rect }.
(** An entry of TextSpan.style (TextSpan.py:294-298, 333-337). *)
Record style := mkStyle { st_type : rtype; st_color : Z; st_uri : nat }.
(** TextSpan.py:49-52: raw font name (as an identity), size, flags, colour. *)
Record attrs := mkAttrs { at_font : nat; at_size : Q; at_flags : Z; at_color : Z }.
Record tspan := mkTspan { ts_chars : list char; ts_bbox : rect; ts_style : list style; ts_attrs : attrs }.
(** Spans.py:10-18: text or inline image (identity and box). *)
Inductive span := SText (t : tspan) | SImage (id : nat) (b : rect).
Definition span_bbox (s : span) : rect := match s with SText t => ts_bbox t | SImage _ b => b end.
Definition span_bool (s : span) : bool := rect_bool (span_bbox s).
(** TextSpan.py:90-94. *)
Definition ts_text (t : tspan) : list Z := map ch_c (ts_chars t).

(** Char.py:28-52 [contained_in_rect]. *)
Definition char_in (horizontal : bool) (r : rect) (c : char) : bool :=
  if rcontains r (ch_bbox c) then true
  else let i := rinter (ch_bbox c) r in
       if horizontal then qlt ((1 # 2) * rwidth (ch_bbox c)) (rwidth i)
       else qlt ((1 # 2) * rheight (ch_bbox c)) (rheight i).

(** [copy()] followed by update_bbox and assignment of chars (TextSpan.py:252-253). *)
Definition part (t : tspan) (b : rect) (cs : list char) : tspan :=
  mkTspan cs (rround b) (ts_style t) (ts_attrs t).
Definition set_type (s : shape) (t : rtype) : shape :=
  mkShape (sh_kind s) (sh_bbox s) (sh_color s) t (sh_x0 s) (sh_y0 s) (sh_x1 s) (sh_y1 s) (sh_width s) (sh_uri s).
(** share.rgb_value((1,1,1)) (share.py:197-219); value proved in ColorProps. *)
Definition WHITE : Z := 16777215.
(** TextSpan.py:301-328: type decided by the geometry. *)
Definition style_type (horizontal : bool) (t : tspan) (s : shape) : rtype :=
  let h_rect := hi horizontal (sh_bbox s) - lo horizontal (sh_bbox s) in
  let h_span := hi horizontal (ts_bbox t) - lo horizontal (ts_bbox t) in
  let d := qabs (hi horizontal (ts_bbox t) - lo horizontal (sh_bbox s)) in
  if qle ((1 # 2) * h_span) h_rect then
    if negb (Z.eqb (sh_color s) WHITE) &&
       match get_main_bbox (ts_bbox t) (sh_bbox s) FACTOR_MAJOR with Some m => rect_bool m | None => false end
    then R_HIGHLIGHT else sh_type s
  else if qle d ((1 # 4) * h_span) then R_UNDERLINE
  else if qlt ((35 # 100) * h_span) d && qlt d ((75 # 100) * h_span) then R_STRIKE
  else R_UNDEFINED.
(** TextSpan.py:277-339 [_parse_text_format]: the span and the shape (whose type is
    assigned) afterwards. *)
Definition add_style (t : tspan) (st : style) : tspan :=
  mkTspan (ts_chars t) (ts_bbox t) (ts_style t ++ [st]) (ts_attrs t).
Definition parse_format (horizontal : bool) (t : tspan) (s : shape) : tspan * shape :=
  match sh_type s with
  | R_BORDER | R_SHADING => (t, s)
  | R_HYPERLINK => (add_style t (mkStyle R_HYPERLINK (sh_color s) (sh_uri s)), s)
  | _ => let k := style_type horizontal t s in
         if rtype_eqb k R_UNDEFINED then (t, set_type s k)
         else (add_style t (mkStyle k (sh_color s) 0), set_type s k)
  end.

(** Index of the first char in the shape: TextSpan.py:240 ([None] is -1). *)
Fixpoint first_index (p : char -> bool) (l : list char) : option nat :=
  match l with
  | [] => None
  | c :: t => if p c then Some O else option_map S (first_index p t)
  end.
(** TextSpan.py:227-232: the intersection extended over the height of the span. *)
Definition across (horizontal : bool) (i b : rect) : rect :=
  if horizontal then mkRect (rx0 i) (ry0 b) (rx1 i) (ry1 b) else mkRect (rx0 b) (ry0 i) (rx1 b) (ry1 i).
(** TextSpan.py:202-274 [split]. *)
Definition split_span (horizontal : bool) (t : tspan) (s : shape) : list tspan * shape :=
  let b := ts_bbox t in
  let i := rinter (sh_bbox s) b in
  if negb (rect_bool i) then ([t], s)
  else
    let i := across horizontal i b in
    let inside := char_in horizontal (sh_bbox s) in
    let cs := ts_chars t in
    let pos := first_index inside cs in
    let len := length (filter inside cs) in
    let pos_end := match pos with None => O | Some p => (p + len)%nat end in
    let left :=
      match pos with
      | Some (S p) => [part t (if horizontal then mkRect (rx0 b) (ry0 b) (rx0 i) (ry1 b)
                               else mkRect (rx0 b) (ry1 i) (rx1 b) (ry1 b)) (firstn (S p) cs)]
      | _ => []
      end in
    let middle :=
      match pos with
      | Some p => let (m, s') := parse_format horizontal (part t i (firstn len (skipn p cs))) s in ([m], s')
      | None => ([], s)
      end in
    let right :=
      if (pos_end <? length cs)%nat
      then [part t (if horizontal then mkRect (rx1 i) (ry0 b) (rx1 b) (ry1 b)
                    else mkRect (rx0 b) (ry0 b) (rx1 b) (ry0 i)) (skipn pos_end cs)]
      else [] in
    (left ++ fst middle ++ right, snd middle).

(* ------------------------------------------------------------------ *)
(** * Lines *)
(** Line.py:25-52. *)
Record line := mkLine { ln_bbox : rect; ln_dir : direction; ln_spans : list span; ln_pid : option nat; ln_break : bool }.
Definition ln_bool (l : line) : bool := rect_bool (ln_bbox l).
Definition ln_elem (l : line) : elem := mkElem 0 (ln_bbox l) (ln_dir l).
Definition same_row (a b : line) : bool := in_same_row (ln_elem a) (ln_elem b).
(** Line.py:149-151 [add_span] (Collection.append with its parent). *)
Definition line_add (l : line) (s : span) : line :=
  if span_bool s then mkLine (union_bbox (ln_bbox l) (span_bbox s)) (ln_dir l) (ln_spans l ++ [s]) (ln_pid l) (ln_break l) else l.
(** Line.py:136-146 [add]. *)
Definition line_add_all (l : line) (ss : list span) : line := fold_left line_add ss l.
(** [line.spans.reset(ss)] (Collection.py:181-192): the box of the line only grows. *)
Definition line_reset (l : line) (ss : list span) : line :=
  line_add_all (mkLine (ln_bbox l) (ln_dir l) [] (ln_pid l) (ln_break l)) ss.

(** Lines.py:281-289: split the spans of one line. *)
Fixpoint split_spans (horizontal : bool) (ss : list span) (s : shape) : list span * shape :=
  match ss with
  | [] => ([], s)
  | SImage k b :: t => let (r, s') := split_spans horizontal t s in (SImage k b :: r, s')
  | SText x :: t => let (p, s1) := split_span horizontal x s in
                    let (r, s2) := split_spans horizontal t s1 in (map SText p ++ r, s2)
  end.
(** constants.py: MAJOR_DIST = 5. *)
Definition MAJOR_DIST : Q := 5.
(** Lines.py:260-294 [parse_text_format], without the returned flag. *)
Fixpoint lines_format (ls : list line) (s : shape) : list line * shape :=
  match ls with
  | [] => ([], s)
  | l :: t =>
      if negb (rect_bool (rinter (sh_bbox s) (expand_bbox (ln_elem l) MAJOR_DIST))) then
        if qlt (ry1 (sh_bbox s)) (ry0 (ln_bbox l)) then (l :: t, s)
        else let (t', s') := lines_format t s in (l :: t', s')
      else
        let (ss, s1) := split_spans (is_horizontal (ln_dir l)) (ln_spans l) s in
        let (t', s2) := lines_format t s1 in (line_reset l ss :: t', s2)
  end.
(** TextBlock.py:126-148 and Blocks.py:490-499: [bb] is the box of the block; the
    shapes carry their (changing) type through all blocks. *)
Definition applicable (bb : rect) (s : shape) : bool :=
  (rtype_eqb (sh_type s) R_HYPERLINK || rtype_eqb (sh_type s) R_UNDEFINED) && rintersects bb (sh_bbox s).
Fixpoint block_format (bb : rect) (ls : list line) (rects : list shape) : list line * list shape :=
  match rects with
  | [] => (ls, [])
  | s :: t =>
      let (ls1, s1) := if applicable bb s then lines_format ls s else (ls, s) in
      let (ls2, t1) := block_format bb ls1 t in (ls2, s1 :: t1)
  end.
Fixpoint blocks_format (bs : list (rect * list line)) (rects : list shape) : list (rect * list line) * list shape :=
  match bs with
  | [] => ([], rects)
  | (bb, ls) :: t =>
      let (ls', rects1) := block_format bb ls rects in
      let (t', rects2) := blocks_format t rects1 in ((bb, ls') :: t', rects2)
  end.

(* ------------------------------------------------------------------ *)
(** * strip *)
(** ' ' and the characters removed by str.strip() (Unicode white space). *)
Definition is_blank (c : Z) : bool := Z.eqb c 32.
Definition is_white (c : Z) : bool :=
  existsb (Z.eqb c) [9; 10; 11; 12; 13; 28; 29; 30; 31; 32; 133; 160; 5760; 8192; 8193; 8194; 8195; 8196; 8197; 8198; 8199; 8200; 8201; 8202; 8232; 8233; 8239; 8287; 12288]%Z.
Fixpoint drop_while {A} (p : A -> bool) (l : list A) : list A :=
  match l with [] => [] | x :: t => if p x then drop_while p t else l end.
Definition starts_two_blanks (l : list Z) : bool := match l with a :: b :: _ => is_blank a && is_blank b | _ => false end.
(** TextSpan.py:97-101 [cal_bbox]. *)
Definition chars_bbox (l : list char) : rect := fold_left (fun r c => runion r (ch_bbox c)) l rect0.
Definition set_chars (t : tspan) (cs : list char) : tspan := mkTspan cs (rround (chars_bbox cs)) (ts_style t) (ts_attrs t).
(** TextSpan.py:159-168: [len(text) - len(text.lstrip())] blanks, one kept. *)
Definition span_lstrip (t : tspan) : tspan * bool :=
  let txt := ts_text t in
  if negb (starts_two_blanks txt) then (t, false)
  else let n := (length txt - length (drop_while is_white txt))%nat in
       (set_chars t (skipn (n - 1) (ts_chars t)), true).
(** TextSpan.py:171-180: [chars[:1-n]] with n >= 2. *)
Definition span_rstrip (t : tspan) : tspan * bool :=
  let txt := ts_text t in
  if negb (starts_two_blanks (rev txt)) then (t, false)
  else let n := (length txt - length (drop_while is_white (rev txt)))%nat in
       (set_chars t (firstn (length (ts_chars t) - (n - 1)) (ts_chars t)), true).
Definition strip_with (f : tspan -> tspan * bool) (s : span) : span * bool :=
  match s with SText t => let (t', b) := f t in (SText t', b) | SImage _ _ => (s, false) end.
(** Replace the last item of a list. *)
Fixpoint at_last (f : span -> span * bool) (l : list span) : list span * bool :=
  match l with
  | [] => ([], false)
  | [s] => let (s', b) := f s in ([s'], b)
  | s :: t => let (t', b) := at_last f t in (s :: t', b)
  end.
(** Spans.py:37-53 [strip]; note the short-circuit [or]: the right side is tried only
    if nothing was stripped at the left. *)
Definition spans_strip (ss : list span) : list span * bool :=
  match ss with
  | [] => ([], false)
  | s :: t =>
      let (s', b) := strip_with span_lstrip s in
      if b then (s' :: t, true) else at_last (strip_with span_rstrip) ss
  end.
(** Spans.py:51, Collection.py:31-37. *)
Definition spans_bbox (ss : list span) : rect := rround (fold_left (fun r s => runion r (span_bbox s)) ss rect0).
Definition line_strip (l : line) : line * bool :=
  let (ss, b) := spans_strip (ln_spans l) in
  (mkLine (if b then rround (spans_bbox ss) else ln_bbox l) (ln_dir l) ss (ln_pid l) (ln_break l), b).

(* ------------------------------------------------------------------ *)
(** * Clipping to a box (cells) *)
(** TextSpan.py:342-366.  [Rect.contains] / [Rect.intersects]. *)
Definition HALF : Q := 1 # 2.
Definition char_mostly_in (r : rect) (c : char) : bool :=
  match get_main_bbox (ch_bbox c) r HALF with Some m => rect_bool m | None => false end.
Definition empty_tspan : tspan := mkTspan [] rect0 [] (mkAttrs 0 12 0 0).
Definition tspan_clip (r : rect) (t : tspan) : tspan :=
  if rcontains r (ts_bbox t) then t
  else if negb (rintersects r (ts_bbox t)) then empty_tspan
  else let cs := filter (char_mostly_in r) (ts_chars t) in
       mkTspan cs (fold_left (fun b c => union_bbox b (ch_bbox c)) cs (rround rect0)) (ts_style t) (ts_attrs t).
(** ImageSpan.py:16-32. *)
Definition span_clip (r : rect) (s : span) : span :=
  match s with
  | SText t => SText (tspan_clip r t)
  | SImage k b => match get_main_bbox b r FACTOR_MAJOR with
                  | Some m => if rect_bool m then s else SImage 0 rect0
                  | None => SImage 0 rect0 end
  end.
(** Line.py:154-175.  The new line has no original parent and no line break. *)
Definition line_clip (r : rect) (l : line) : line :=
  if rcontains r (ln_bbox l) then l
  else line_add_all (mkLine rect0 (ln_dir l) [] None false) (map (span_clip r) (ln_spans l)).

(* ------------------------------------------------------------------ *)
(** * Sorting and joining lines *)
(** Lines.py:183-191: rows of lines ([rows] newest first, each row newest first). *)
Fixpoint rows_of (ls : list line) (rows : list (list line)) : list (list line) :=
  match ls with
  | [] => rev (map (@rev line) rows)
  | l :: t =>
      match rows with
      | (p :: r) :: rs => if same_row l p then rows_of t ((l :: p :: r) :: rs) else rows_of t ([l] :: rows)
      | _ => rows_of t ([l] :: rows)
      end
  end.
(** Collection.py:132-141, 220-228. *)
Definition lines_dir (ls : list line) : direction := coll_dir (map ln_elem ls).
Definition line_reading_key (h : bool) (l : line) : list Q :=
  let b := ln_bbox l in if h then [ry0 b; rx0 b; rx1 b] else [rx0 b; ry1 b; ry0 b].
(** Lines.py:156-198 [sort]. *)
Definition lines_sort (ls : list line) : list line :=
  let h := is_horizontal (lines_dir ls) in
  concat (map (sort_key (fun l => [if h then rx0 (ln_bbox l) else ry1 (ln_bbox l)]))
              (rows_of (sort_key (line_reading_key h) ls) [])).
(** Lines.py:67-71 [get_merged_line]. *)
Definition merged_line (cand : list line) : list line :=
  match cand with
  | [] => []
  | l :: t => [line_add_all l (concat (map ln_spans t))]
  end.
Definition keep_lines (ls : list line) : list line := filter ln_bool ls.
(** Lines.py:79-123: [pre] is the line before in the sorted list, [cand] the candidates,
    [out] the lines appended so far. *)
Fixpoint join_loop (overlap merging : Q) (pre : line) (ls cand out : list line) : list line :=
  match ls with
  | [] => out ++ keep_lines (merged_line cand)
  | l :: t =>
      if match get_main_bbox (ln_bbox l) (ln_bbox pre) overlap with Some m => rect_bool m | None => false end
      then join_loop overlap merging l t cand out
      else if negb (same_row l pre) || qlt merging (qabs (rx0 (ln_bbox l) - rx1 (ln_bbox pre)))
      then join_loop overlap merging l t [] (out ++ keep_lines (merged_line cand) ++ keep_lines [l])
      else if forallb (same_row l) cand
      then join_loop overlap merging l t (cand ++ [l]) out
      else join_loop overlap merging l t [] (out ++ keep_lines cand ++ keep_lines [l])
  end.
(** Lines.py:57-126 [join]; reset() drops lines without a box. *)
Definition lines_join (overlap merging : Q) (ls : list line) : list line :=
  match lines_sort ls with
  | [] => []
  | l :: t => keep_lines (join_loop overlap merging l t [l] [])
  end.
