(** Model of writing pages some of whose text cannot be written: the writer of TreeModel with the exceptions that a
    piece of text can raise (RunModel; text/TextSpan.py:369-442), up to where they are caught (converter.py:108-121),
    through text/Line.py:178-181, text/Lines.py, text/TextBlock.py:255-307, table/Cell.py:144-178, table/Row.py:58-77,
    table/TableBlock.py:155-166, page/Blocks.py:501-559, page/Page.py:179-208.  What was written before stays.
    Each function gives what is in the document afterwards, and whether it came to its end. *)
From Verif Require Export TreeModel RunModel.
From Verif Require FailModel.
Open Scope nat_scope.

(** One after the other until the first that raises. *)
Fixpoint until {A} (l : list (A * bool)) : list A * bool :=
  match l with
  | [] => ([], true)
  | (a, ok) :: t => if ok then let (r, o) := until t in (a :: r, o) else ([a], false)
  end.

Section Write.
(** Names of fonts and targets of links. *)
Variables (names uris : nat -> list Z).

(** python-docx: text is cut at tabs and line breaks, each part is checked by lxml when it is added; so what was
    before the last tab or break before the first character that XML does not allow is in the run already. *)
Fixpoint added_text (seen cs : list char) : list char :=
  match cs with
  | [] => seen
  | c :: t =>
      if negb (xml_char (ch_c c)) then []
      else if (ch_c c =? 9)%Z || (ch_c c =? 10)%Z || (ch_c c =? 13)%Z then seen ++ c :: added_text [] t
      else added_text (seen ++ [c]) t
  end.
Definition with_chars (t : tspan) (cs : list char) : tspan := mkTspan cs (ts_bbox t) (ts_style t) (ts_attrs t).
(** What stays of a span that raises: nothing of a link (docx.py:182-190: its run is added after its text was set), else
    a run with the text added so far.  Simplification: the properties such a run has already are not distinguished
    from those of the span. *)
Definition left_of (t : tspan) : list item :=
  if forallb xml_char (ts_text t) then [ISpan (SText t)]
  else if existsb (fun st => rtype_eqb (st_type st) R_HYPERLINK && negb (match strip (ts_text t) with [] => true | _ => false end)) (ts_style t) then []
  else [ISpan (SText (with_chars t (added_text [] (ts_chars t))))].
(** Line.py:178-181, Lines.py (make_docx), TextSpan.py:377-386: the runs of a paragraph.  Pictures do not raise. *)
Fixpoint items_try (l : list item) : list item * bool :=
  match l with
  | [] => ([], true)
  | i :: r =>
      match i with
      | ISpan (SText t) =>
          match write_span names uris t with
          | Some _ => let (w, ok) := items_try r in (i :: w, ok)
          | None => (left_of t, false)
          end
      | _ => let (w, ok) := items_try r in (i :: w, ok)
      end
  end.
(** TextBlock.py:255-307: the format of the paragraph is set before its runs are added. *)
Definition text_try (t : stext) : made * bool :=
  let w := text_docx t in
  let (items, ok) := items_try (wp_items w) in
  (MText (mkWordp (wp_align w) (wp_before w) (wp_after w) (wp_line w) (wp_left w) (wp_right w) (wp_first w) (wp_stops w) items
                  (forallb (fun i => match i with ISpan s => negb (is_picture s) | _ => true end) items)), ok).

(** Row.py:58-77 and TableBlock.py:155-166, with for each cell whether writing its blocks comes to its end; heights of the rows begun.
    Simplification: a cell that raises by itself (no regular grid) leaves the table as it was before this cell. *)
Fixpoint row_try (ncols i j n : nat) (cells : list (wcell ditem * bool)) (g : grid ditem) : grid ditem * bool :=
  match n with
  | O => (g, true)
  | S n' =>
      match cells with
      | [] => (g, false)
      | (c, ok) :: t =>
          match cell_make_docx dnewp dnoruns ncols i j c g with
          | Some g' => if ok then row_try ncols i (S j) n' t g' else (g', false)
          | None => (g, false)
          end
      end
  end.
Fixpoint rows_try (ncols i : nat) (src : list (Q * list (wcell ditem * bool))) (g : grid ditem) : list Z * grid ditem * bool :=
  match src with
  | [] => ([], g, true)
  | (h, cells) :: t =>
      if (pt h <? 0)%Z then ([], g, false)
      else let (g', ok) := row_try ncols i 0 ncols cells g in
           if ok then let '(hs, g2, ok2) := rows_try ncols (S i) t g' in (pt h :: hs, g2, ok2) else ([pt h], g', false)
  end.
Definition table_try (ncols : nat) (src : list (Q * list (wcell ditem * bool))) : list Z * grid ditem * bool :=
  rows_try ncols 0 src (new_grid dnewp (List.length src) ncols).
(** Blocks.py:501-559 for the blocks of a cell, the last of which raised (or not). *)
Definition cell_try (r : list made * bool) : list ditem :=
  let (ms, ok) := r in if ok then cell_docx ms else map (expand ms) (DocxModel.make_flow DocxModel.InCell (number 0 ms) false []).
(** Blocks.py:524-535, Cell.py:144-178. *)
Fixpoint block_try (b : sblock) : made * bool :=
  match b with
  | ST t => text_try t
  | STable before rows =>
      let ncols := match rows with [] => 0 | (_, cells) :: _ => List.length cells end in
      let cell (c : scell) : wcell ditem * bool :=
        match c with
        | (None, v, _) => (mkW None v None, true)
        | (Some i, v, bs) =>
            let r := until (map block_try bs) in
            (mkW (Some i) v (match bs with [] => None | _ => Some (cell_try r) end), snd r)
        end in
      let '(hs, g, ok) := table_try ncols (map (fun row : Q * list (option bcell * bool * list sblock) => (fst row, map cell (snd row))) rows) in
      (MTable before hs g, ok)
  end.
(** Page.py:179-208, converter.py:108-118.  The blocks of a page that was cut off are those begun. *)
Fixpoint pages_begun (k : nat) (ps : list (spage * (list made * bool))) : list (DocxModel.page * FailModel.trouble) :=
  match ps with
  | [] => []
  | (p, (ms, ok)) :: t =>
      (DocxModel.mkPage (sp_section p) (number k ms) (sp_floats p), if ok then FailModel.Fine else FailModel.InBlock (List.length ms - 1)) :: pages_begun (k + List.length ms) t
  end.
Definition document_try (template : DocxModel.section) (ps : list spage) : list DocxModel.section * list ditem :=
  let rs := map (fun p => until (map block_try (sp_blocks p))) ps in
  let d := FailModel.make_pages_try template (pages_begun 0 (combine ps rs)) in
  (DocxModel.d_sections d, map (expand (concat (map fst rs))) (DocxModel.d_body d)).
End Write.
