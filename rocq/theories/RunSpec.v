(** Vocabulary of C72: what a reader finds in a run. *)
From Verif Require Export RunModel ColorSpec.
Open Scope Z_scope.

(** The text of a run as Word reads it. *)
Fixpoint content_text (c : rcontent) : list Z :=
  match c with C_text s => s | C_tab => [9] | C_br => [10] | C_link _ _ inner => flat_map content_text inner end.
Definition run_text (r : wrun) : list Z := flat_map content_text (wr_content r).
(** Both line ends of a string are breaks. *)
Definition breaks_read (s : list Z) : list Z := map (fun c => if c =? 13 then 10 else c) s.
(** The links of a run: target and text under it. *)
Definition run_links (r : wrun) : list (list Z * list Z) :=
  flat_map (fun c => match c with C_link u _ inner => [(u, flat_map content_text inner)] | _ => [] end) (wr_content r).
(** A string of nothing but white space. *)
Definition blank (s : list Z) : Prop := forall c, In c s -> is_white c = true.
(** The colour of a highlight as Word shows it. *)
Definition highlight_color (h : highlight) : Z :=
  match h with RED => 16711680 | BRIGHT_GREEN => 65280 | BLUE => 255 | YELLOW => 16776960 | PINK => 16711935 | TURQUOISE => 65535 end.
(** The colours marking the text, the colours it is underlined with (in the text colour: [text]), whether it is struck through. *)
Definition marks (r : wrun) : list Z :=
  flat_map (fun p => match p with P_highlight h => [highlight_color h] | P_shd d => [denotes d] | _ => [] end) (wr_props r).
Definition underlines (text : Z) (r : wrun) : list Z :=
  flat_map (fun p => match p with P_u None => [text] | P_u (Some d) => [denotes d] | _ => [] end) (wr_props r).
Definition struck (r : wrun) : Prop := In (P_strike true) (wr_props r).
(** The properties with a given meaning. *)
Definition fonts (r : wrun) := flat_map (fun p => match p with P_fonts a b => [(a, b)] | _ => [] end) (wr_props r).
Definition bolds (r : wrun) := flat_map (fun p => match p with P_bold b => [b] | _ => [] end) (wr_props r).
Definition italics (r : wrun) := flat_map (fun p => match p with P_italic b => [b] | _ => [] end) (wr_props r).
Definition colors (r : wrun) := flat_map (fun p => match p with P_color c => [c] | _ => [] end) (wr_props r).
Definition sizes (r : wrun) := flat_map (fun p => match p with P_size c => [c] | _ => [] end) (wr_props r).
Definition scales (r : wrun) := flat_map (fun p => match p with P_w c => [c] | _ => [] end) (wr_props r).
(** The styles of one kind on a span. *)
Definition styles_of (k : rtype) (t : tspan) : list style := filter (fun s => rtype_eqb (st_type s) k) (ts_style t).
Definition color_value (v : Z) : Prop := 0 <= v < 2 ^ 24.
