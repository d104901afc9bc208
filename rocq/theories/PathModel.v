(** Model of pdf2docx/shape/Path.py and pdf2docx/shape/Paths.py. *)
From Verif Require Export ShapeModel.
From Verif Require Import GraphModel InterModel.
Open Scope Q_scope.

Definition point := (Q * Q)%type.
(** Items of [page.getDrawings()]: ("l", p1, p2), ("c", p1, .., p4), ("re", rect); any
    other kind is ignored by the code. *)
Inductive ditem := ILine (p q : point) | ICurve (p1 p2 p3 p4 : point) | IRect (r : rect) | IOther.
(** fitz.Point.__eq__. *)
Definition point_eqb (p q : point) : bool := qeq (fst p) (fst q) && qeq (snd p) (snd q).
(** Path.py:241: item[1] and item[-1] of a line or curve. *)
Definition it_start (i : ditem) : option point := match i with ILine p _ | ICurve p _ _ _ => Some p | _ => None end.
Definition it_end (i : ditem) : option point := match i with ILine _ q | ICurve _ _ _ q => Some q | _ => None end.

(* ------------------------------------------------------------------ *)
(** * Path._group_segments (Path.py:226-268) *)
Definition close_current (segments : list ditem) : list (list ditem) := match segments with [] => [] | _ => [segments] end.
(** The loop from line 238: [segments], [cursor] and the groups appended from here on. *)
Fixpoint group_loop (segments : list ditem) (cursor : point) (items : list ditem) : list (list ditem) :=
  match items with
  | [] => close_current segments
  | i :: t =>
      match i with
      | ILine p q | ICurve p _ _ q =>
          match segments with
          | [] => group_loop [i] q t
          | _ => if point_eqb p cursor then group_loop (segments ++ [i]) q t
                 else segments :: group_loop [i] q t
          end
      | IRect _ => close_current segments ++ [i] :: group_loop [] cursor t
      | IOther => group_loop segments cursor t
      end
  end.
Definition group_segments (items : list ditem) : list (list ditem) := group_loop [] (0, 0) items.

(* ------------------------------------------------------------------ *)
(** * Segments (Path.py:107-202) *)
Inductive segment := SLine (p q : point) | SCurve (ps : list point) | SRect (r : rect).
Definition seg_of (i : ditem) : list segment :=
  match i with
  | ILine p q => [SLine p q]
  | ICurve a b c d => [SCurve [a; b; c; d]]
  | IRect r => [SRect r]
  | IOther => []
  end.
(** Path.py:116-119: [items[-1][-1]] and [items[0][1]]; groups of two or more items hold
    lines and curves only (PathProof.groups_kind). *)
Definition closing (close_path : bool) (items : list ditem) : list segment :=
  if close_path && (2 <=? length items)%nat then
    match it_end (last items IOther), it_start (hd IOther items) with
    | Some p, Some q => [SLine p q]
    | _, _ => []
    end
  else [].
Definition segments (close_path : bool) (items : list ditem) : list segment := flat_map seg_of items ++ closing close_path items.
(** [segment.points]; a rectangle is alone in its group and has none. *)
Definition seg_points (s : segment) : list point := match s with SLine p q => [p; q] | SCurve ps => ps | SRect _ => [] end.
Definition q_min (l : list Q) : Q := match l with [] => 0 | x :: t => fold_left qmin t x end.
Definition q_max (l : list Q) : Q := match l with [] => 0 | x :: t => fold_left qmax t x end.
(** Path.py:165-169. *)
Fixpoint shoelace (ps : list point) : Q :=
  match ps with
  | p :: ((q :: _) as t) => (fst p * snd q - fst q * snd p) + shoelace t
  | _ => 0
  end.
(** Path.py:164. *)
Definition closed_curve (ps : list point) : bool :=
  match ps with
  | [] => false
  | p :: _ => let e := last ps p in qlt (qabs (fst p - fst e) + qabs (snd p - snd e)) (1 # 1000)
  end.
(** Path.py:135-171: (bbox, area).  fitz.Rect(...) of ordered coordinates. *)
Definition bbox_area (segs : list segment) : rect * Q :=
  match segs with
  | [SRect r] => (r, area r)
  | _ =>
      let ps := flat_map seg_points segs in
      (mkRect (round2 (q_min (map fst ps))) (round2 (q_min (map snd ps))) (round2 (q_max (map fst ps))) (round2 (q_max (map snd ps))),
       if closed_curve ps then qabs (shoelace ps / 2) else 0)
  end.
(** constants.py:16. *)
Definition ISO_FACTOR : Q := 9 # 10.
(** Path.py:128-132. *)
Definition seg_iso (segs : list segment) : bool :=
  let (b, a) := bbox_area segs in qeq (area b) 0 || qle ISO_FACTOR (a / area b).
(** Raw stroke: start, end, width; the colour is the same for all. *)
Definition raw_line := (point * point * Q)%type.
(** Path.py:41-63, 71-99, 36 (curves). *)
Definition seg_strokes (width : Q) (s : segment) : list raw_line :=
  match s with
  | SLine p q => [(p, q, width)]
  | SRect r =>
      let a := (rx0 r, ry0 r) in let b := (rx1 r, ry0 r) in let c := (rx1 r, ry1 r) in let d := (rx0 r, ry1 r) in
      [(a, b, width * 2); (b, c, width * 2); (c, d, width * 2); (d, a, width * 2)]
  | SCurve _ => []
  end.

(* ------------------------------------------------------------------ *)
(** * Path (Path.py:205-332) *)
Record path := mkPath { pt_items : list ditem; pt_close : bool; pt_width : Q; pt_color : option Z; pt_fill : option Z }.
Definition path_segments (p : path) : list (list segment) := map (segments (pt_close p)) (group_segments (pt_items p)).
(** Path.py:220-223. *)
Definition path_bbox (p : path) : rect :=
  fold_left (fun r segs => let b := fst (bbox_area segs) in
               runion r (if qeq (area b) 0 then rplus b (- pt_width p) (- pt_width p) (pt_width p) (pt_width p) else b)) (path_segments p) rect0.
Definition path_iso (p : path) : bool := forallb seg_iso (path_segments p).
Inductive raw_item := RLine (l : raw_line) (color : Z) | RFill (b : rect) (color : Z).
(** Path.py:285-332; colours are already integers (rgb_value, ColorModel). *)
Definition path_shapes (p : path) : list raw_item :=
  match pt_color p with
  | None => []
  | Some c => map (fun l => RLine l c) (flat_map (fun segs => flat_map (seg_strokes (pt_width p)) segs) (path_segments p))
  end ++
  match pt_fill p with
  | None => []
  | Some c => map (fun segs => RFill (fst (bbox_area segs)) c) (path_segments p)
  end.

(* ------------------------------------------------------------------ *)
(** * Paths (Paths.py) *)
(** Paths.py:22-31; [intersects] of fitz.Rect: a common part of positive area. *)
Definition rect_intersects (a b : rect) : bool := negb (rect_empty a) && negb (rect_empty b) && qlt (qmax (rx0 a) (rx0 b)) (qmin (rx1 a) (rx1 b)) && qlt (qmax (ry0 a) (ry0 b)) (qmin (ry1 a) (ry1 b)).
Definition paths_restore (width height : Q) (l : list path) : list path := filter (fun p => rect_intersects (path_bbox p) (mkRect 0 0 width height)) l.
(** Paths.py:40-53. *)
Definition contains_curve (ratio : Q) (l : list path) : bool :=
  match l with
  | [] => false
  | _ => qlt ratio (inject_Z (Z.of_nat (length (filter (fun p => negb (path_iso p)) l))) / inject_Z (Z.of_nat (length l)))
  end.
(** Paths.py:76-90. *)
Definition iso_paths (l : list path) : list raw_item := flat_map path_shapes (filter path_iso l).
(** Paths.py:93-114; [groups]: the groups of connected paths (InterModel). *)
Fixpoint paths_shapes (ratio : Q) (groups : list (list path)) : list raw_item * list rect * bool :=
  match groups with
  | [] => ([], [], false)
  | g :: t =>
      let '(s, a, svg) := paths_shapes ratio t in
      if contains_curve ratio g then (s, a, true) else (iso_paths g ++ s, map path_bbox g ++ a, svg)
  end.
(** Paths.py:93-114 with line 103. *)
Definition paths_to_shapes (order : list nat -> list nat) (ratio : Q) (l : list path) : option (list raw_item * list rect * bool) :=
  option_map (fun gs => paths_shapes ratio (map (flat_map (item_at l)) gs)) (group_by_connectivity order (1 # 10) (1 # 10) (map path_bbox l)).
