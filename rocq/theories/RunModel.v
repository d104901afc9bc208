(** Model of what a text span writes into a paragraph: TextSpan.make_docx and _set_text_format (text/TextSpan.py:369-442),
    add_hyperlink (common/docx.py:149-194), set_char_scaling, set_char_shading, set_char_underline (common/docx.py:93-146).
    python-docx (trusted): a property set through its API replaces the elements with its tag and stands in the order of the
    schema; [insert(0, xml)] puts an element in front of all others; text assigned to a run becomes text, tab and break
    elements, and lxml raises ValueError for a character that XML does not allow.
    Font names and link targets are given by functions of the identities in the span. *)
From Verif Require Export ExtractModel ParaModel ColorModel.
Open Scope Z_scope.

(** A property of a run (child of w:rPr).  Underline: colour digits, or the colour of the text. *)
Inductive prop :=
| P_style | P_fonts (name asian : list Z) | P_bold (b : bool) | P_italic (b : bool) | P_strike (b : bool) | P_color (rgb : list Z)
| P_w (percent : Q) | P_size (half_points : Z) | P_highlight (h : highlight) | P_u (color : option (list Z)) | P_shd (fill : list Z).
(** Place of the tag in the sequence of the schema (python-docx CT_RPr). *)
Definition rank (p : prop) : Z :=
  match p with
  | P_style => 0 | P_fonts _ _ => 1 | P_bold _ => 2 | P_italic _ => 4 | P_strike _ => 8 | P_color _ => 18 | P_w _ => 20 | P_size _ => 23
  | P_highlight _ => 25 | P_u _ => 26 | P_shd _ => 29
  end.
(** python-docx: insert before the first successor. *)
Fixpoint put (p : prop) (l : list prop) : list prop :=
  match l with [] => [p] | q :: t => if rank p <? rank q then p :: q :: t else q :: put p t end.
Definition set_prop (p : prop) (l : list prop) : list prop := put p (filter (fun q => negb (rank q =? rank p)) l).
(** python-docx: text, tabs and breaks; a link with its own run. *)
Inductive rcontent := C_text (s : list Z) | C_tab | C_br | C_link (uri : list Z) (props : list prop) (inner : list rcontent).
(** XML 1.0 Char. *)
Definition xml_char (c : Z) : bool :=
  (c =? 9) || (c =? 10) || (c =? 13) || ((32 <=? c) && (c <=? 55295)) || ((57344 <=? c) && (c <=? 65533)) || ((65536 <=? c) && (c <=? 1114111)).
Definition flush (buf : list Z) : list rcontent := match buf with [] => [] | _ => [C_text buf] end.
Fixpoint text_content (buf s : list Z) : list rcontent :=
  match s with
  | [] => flush buf
  | c :: t => if c =? 9 then flush buf ++ C_tab :: text_content [] t
              else if (c =? 10) || (c =? 13) then flush buf ++ C_br :: text_content [] t
              else text_content (buf ++ [c]) t
  end.
Record wrun := mkWrun { wr_props : list prop; wr_content : list rcontent }.
(** TextSpan.py:424-442. *)
Definition style_prop (color : Z) (st : style) (l : list prop) : list prop :=
  match st_type st with
  | R_HIGHLIGHT => match set_char_shading (st_color st) with
                   | Highlight h => set_prop (P_highlight h) l
                   | Fill ds => P_shd (match ds with Some d => d | None => [] end) :: l
                   end
  | R_UNDERLINE => if color =? st_color st then set_prop (P_u None) l
                   else P_u (Some (match color_attribute (st_color st) with Some d => d | None => [] end)) :: l
  | R_STRIKE => set_prop (P_strike true) l
  | _ => l
  end.
(** TextSpan.py:389-442.  RGBColor accepts components from 0 to 255 only; the size in half points. *)
Definition format_props (name : list Z) (a : attrs) (styles : list style) : option (list prop) :=
  match run_font (at_flags a) (at_size a), rgb_component (at_color a) with
  | Some f, Some rgb =>
      if negb (forallb xml_char name) || negb (forallb (fun c => (0 <=? c) && (c <=? 255)) rgb) then None
      else
        let l := set_prop (P_bold (rf_bold f)) (set_prop (P_italic (rf_italic f)) []) in
        let l := set_prop (P_size (qtrunc (rf_size f * 2))) (set_prop (P_color rgb) (set_prop (P_fonts name name) l)) in
        let l := match rf_scale f with Some s => P_w (100 * s)%Q :: l | None => l end in
        Some (fold_left (fun l st => style_prop (at_color a) st l) styles l)
  | _, _ => None
  end.
(** TextSpan.py:377-386.  [None]: an exception. *)
Definition write_span (names uris : nat -> list Z) (t : tspan) : option wrun :=
  let text := ts_text t in
  if negb (forallb xml_char text) then None
  else
    let content :=
      match find (fun st => rtype_eqb (st_type st) R_HYPERLINK && negb (match strip text with [] => true | _ => false end)) (ts_style t) with
      | Some st => [C_link (uris (st_uri st)) [P_style] (text_content [] text)]
      | None => text_content [] text
      end in
    option_map (fun props => mkWrun props content) (format_props (names (at_font (ts_attrs t))) (ts_attrs t) (ts_style t)).
