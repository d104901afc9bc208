(** Vocabulary for pages. *)
From Verif Require Import GeomModel GeomSpec PageModel.
Open Scope Q_scope.

(** A visible element inside the page (0, 0, w, h). *)
Definition inside_page (w h : Q) (e : elem) : Prop := covers (mkRect 0 0 w h) (e_bbox e).
(** Documented defaults (converter.py:193-214). *)
Definition documented : list (string * value) :=
  [ ("connected_border_tolerance", VNum (1 # 2)); ("max_border_width", VNum 6); ("min_border_clearance", VNum 2);
    ("float_image_ignorable_gap", VNum 5); ("float_layout_tolerance", VNum (1 # 10));
    ("page_margin_factor_top", VNum (1 # 2)); ("page_margin_factor_bottom", VNum (1 # 2));
    ("shape_merging_threshold", VNum (1 # 2)); ("shape_min_dimension", VNum 2); ("line_overlap_threshold", VNum (9 # 10));
    ("line_merging_threshold", VNum 2); ("line_separate_threshold", VNum 5);
    ("lines_left_aligned_threshold", VNum 1); ("lines_right_aligned_threshold", VNum 1);
    ("lines_center_aligned_threshold", VNum 2); ("clip_image_res_ratio", VNum 3); ("curve_path_ratio", VNum (1 # 5)) ]%string.
(** The last call of a history that selects page i (an empty selection means all
    pages, which is what Converter.parse does). *)
Definition selects (i : nat) (call : list nat * option dict) : bool :=
  match fst call with [] => true | l => existsb (Nat.eqb i) l end.
Fixpoint last_selecting (i : nat) (calls : list (list nat * option dict)) : option (option dict) :=
  match calls with
  | [] => None
  | c :: t => match last_selecting i t with Some s => Some s | None => if selects i c then Some (snd c) else None end
  end.
