(** Model of pdf2docx/table/Border.py and of the stream-table part of
    pdf2docx/table/TablesConstructor.py (lines 164-427), with
    Lines.group_by_columns / group_by_rows (Lines.py:237-257). *)
From Verif Require Export ShapeModel TableModel GraphModel ColorModel.
Open Scope Q_scope.

(* ------------------------------------------------------------------ *)
(** * One border (Border.py:32-225) *)
(** [bd_fin] merges [finalized] and [_value]: [None] is not finalised.  Borders live in a
    list (creation order); [bd_l], [bd_u] are the positions of the boundary borders there. *)
Record border := mkBorder {
  bd_h : bool; bd_fin : option Q; bd_ref : bool; bd_lo : Q; bd_hi : Q;
  bd_l : nat; bd_u : nat; bd_width : Q; bd_color : Z }.
(** Border.py:35-71 (always created with a range). *)
Definition new_border (h : bool) (lo hi : Q) (l u : nat) (ref : bool) : border := mkBorder h None ref lo hi l u 0 0.
(** Border.py:74-79 [value]. *)
Definition bd_value (b : border) : Q := match bd_fin b with Some v => v | None => (bd_lo b + bd_hi b) / 2 end.
(** Border.py:91-101 [is_valid]. *)
Definition bd_valid (b : border) (v : Q) : bool := qle (bd_lo b - MINOR_DIST) v && qle v (bd_hi b + MINOR_DIST).
(** Border.py:149-162 [finalize_by_value]: new border and result. *)
Definition fin_value (b : border) (v : Q) : border * bool :=
  match bd_fin b with
  | Some _ => (b, false)
  | None => if bd_valid b v
            then (mkBorder (bd_h b) (Some v) false (bd_lo b) (bd_hi b) (bd_l b) (bd_u b) (bd_width b) (bd_color b), true)
            else (b, false)
  end.
(** Border.py:197-198. *)
Definition set_style (b : border) (w : Q) (c : Z) : border := mkBorder (bd_h b) (bd_fin b) (bd_ref b) (bd_lo b) (bd_hi b) (bd_l b) (bd_u b) w c.
Definition set_ref (b : border) (r : bool) : border := mkBorder (bd_h b) (bd_fin b) r (bd_lo b) (bd_hi b) (bd_l b) (bd_u b) (bd_width b) (bd_color b).

(* ------------------------------------------------------------------ *)
(** * The collection: a list of borders *)
Definition bs := list border.
Fixpoint upd_at {A} (k : nat) (f : A -> A) (l : list A) : list A :=
  match l, k with
  | [], _ => []
  | x :: t, O => f x :: t
  | x :: t, S k' => x :: upd_at k' f t
  end.
(** [border.finalize_by_value(v)] on the border at position [k]. *)
Definition fin_at (k : nat) (v : Q) (st : bs) : bs := upd_at k (fun b => fst (fin_value b v)) st.
(** Border.py:165-203 [finalize_by_stroke] on the border at position [k]; the flag says
    that [stroke.type] becomes BORDER. *)
Definition fin_stroke (k : nat) (s : shape) (st : bs) : bs * bool :=
  match nth_error st k with
  | None => (st, false)
  | Some b =>
      let h := bd_h b in
      let low := if h then sh_x0 s else sh_y0 s in
      let up := if h then sh_x1 s else sh_y1 s in
      let v := if h then sh_y0 s else sh_x0 s in
      if negb (bd_valid b v) then (st, false)
      else match nth_error st (bd_l b), nth_error st (bd_u b) with
           | Some L, Some U =>
               if qlt (bd_hi L) low && qlt up (bd_lo U) then (st, false)
               else let done := snd (fin_value b v) in
                    let st1 := if done then upd_at k (fun b => set_style (fst (fin_value b v)) (sh_width s) (sh_color s)) st else st in
                    (fin_at (bd_u b) up (fin_at (bd_l b) low st1), done)
           | _, _ => (st, false)
           end
  end.
(** Shape.py:75 [is_determined]. *)
Definition determined (s : shape) : bool := negb (rtype_eqb (sh_type s) R_UNDEFINED).
(** Border.py:302-306: all borders of the orientation of the stroke, in order. *)
Fixpoint stroke_loop (s : shape) (ks : list nat) (st : bs) (used : bool) : bs * bool :=
  match ks with
  | [] => (st, used)
  | k :: t =>
      match nth_error st k with
      | None => stroke_loop s t st used
      | Some b => if Bool.eqb (horizontal s) (bd_h b)
                  then let '(st', d) := fin_stroke k s st in stroke_loop s t st' (used || d)
                  else stroke_loop s t st used
      end
  end.
Definition set_type (s : shape) (t : rtype) : shape := mkShape (sh_kind s) (sh_bbox s) (sh_color s) t (sh_x0 s) (sh_y0 s) (sh_x1 s) (sh_y1 s) (sh_width s) (sh_uri s).
(** Border.py:297-306 [_finalize_by_strokes]: borders, and the strokes with their new types. *)
Fixpoint by_strokes (ss : list shape) (st : bs) : bs * list shape :=
  match ss with
  | [] => (st, [])
  | s :: t =>
      if determined s then let '(st', r) := by_strokes t st in (st', s :: r)
      else let '(st1, used) := stroke_loop s (seq 0 (length st)) st false in
           let '(st', r) := by_strokes t st1 in (st', (if used then set_type s R_BORDER else s) :: r)
  end.
(** share.py:158-171: [rgb_value((1,1,1))]. *)
Definition WHITE : Z := 16777215.
(** Border.py:269-280. *)
Definition fill_strokes (f : shape) : list shape :=
  if determined f || Z.eqb (sh_color f) WHITE then []
  else let b := sh_bbox f in
       [side_stroke (rx0 b) (ry0 b) (rx1 b) (ry0 b); side_stroke (rx0 b) (ry1 b) (rx1 b) (ry1 b);
        side_stroke (rx0 b) (ry0 b) (rx0 b) (ry1 b); side_stroke (rx1 b) (ry0 b) (rx1 b) (ry1 b)].

(** Border.py:326-333: distinct end points in increasing order. *)
Fixpoint qdedup (l : list Q) : list Q :=
  match l with [] => [] | x :: t => if existsb (qeq x) t then qdedup t else x :: qdedup t end.
Definition end_points (l : list border) : list Q := sort_key (fun x => [x]) (qdedup (flat_map (fun b => [bd_lo b; bd_hi b]) l)).
(** Border.py:336-341; [int(bool)] as bool. *)
Fixpoint centers (l : list Q) : list Q :=
  match l with x :: ((y :: _) as t) => (x + y) / 2 :: centers t | _ => [] end.
Definition status_of (l : list border) (x : Q) : list bool := map (fun b => bd_valid b x) l.
Fixpoint count (l : list bool) : nat := match l with [] => O | b :: t => ((if b then 1 else 0) + count t)%nat end.
(** Border.py:343-344: stable, larger count first. *)
Definition candidates (l : list border) : list (Q * list bool) :=
  sort_key (fun c => [- inject_Z (Z.of_nat (count (snd c)))]) (map (fun x => (x, status_of l x)) (centers (end_points l))).
(** Border.py:346-364: the entries of [current_status] stay 0 or 1 because overlaps are skipped;
    [ks]: positions of the borders; [cur]: their status. *)
Fixpoint any2 (a b : list bool) : bool := match a, b with x :: s, y :: t => (x && y) || any2 s t | _, _ => false end.
Fixpoint or2 (a b : list bool) : list bool := match a, b with x :: s, y :: t => (x || y) :: or2 s t | _, _ => [] end.
Fixpoint fin_marked (ks : list nat) (status : list bool) (x : Q) (st : bs) : bs :=
  match ks, status with
  | k :: ks', b :: s' => fin_marked ks' s' x (if b then fin_at k x st else st)
  | _, _ => st
  end.
Fixpoint layout_loop (cs : list (Q * list bool)) (ks : list nat) (cur : list bool) (st : bs) : bs :=
  match cs with
  | [] => st
  | (x, status) :: t =>
      if Nat.eqb (count cur) (length ks) then st
      else if any2 cur status then layout_loop t ks cur st
      else layout_loop t ks (or2 cur status) (fin_marked ks status x st)
  end.
(** Border.py:310-364 [_finalize_by_layout] on the borders at positions [ks]. *)
Definition pick {A} (ks : list nat) (st : list A) : list A := flat_map (fun k => match nth_error st k with Some b => [b] | None => [] end) ks.
Definition by_layout (ks : list nat) (st : bs) : bs :=
  layout_loop (candidates (pick ks st)) ks (map (fun _ => false) ks) st.
(** Border.py:286-294. *)
Definition open_borders (h : bool) (st : bs) : list nat :=
  filter (fun k => match nth_error st k with
                   | Some b => match bd_fin b with None => negb (bd_ref b) && Bool.eqb (bd_h b) h | Some _ => false end
                   | None => false
                   end) (seq 0 (length st)).

(** Border.py:374-409 [_add_full_dummy_borders].  [rorder]: iteration order of the set of
    ranges.  The dictionary is keyed by bound methods (line 383), so the lookup of line 400
    always gives the empty list and line 403 never applies. *)
Definition same_range (a b : Q * Q) : bool := qeq (fst a) (fst b) && qeq (snd a) (snd b).
Fixpoint rdedup (l : list (Q * Q)) : list (Q * Q) :=
  match l with [] => [] | x :: t => if existsb (same_range x) t then rdedup t else x :: rdedup t end.
Definition h_ranges (st : bs) : list (Q * Q) := rdedup (map (fun b => (bd_lo b, bd_hi b)) (filter bd_h st)).
Definition v_sorted (st : bs) : list nat :=
  map snd (sort_key (fun p => [fst p]) (flat_map (fun k => match nth_error st k with Some b => if bd_h b then [] else [(bd_value b, k)] | None => [] end) (seq 0 (length st)))).
(** Border.py:387-409 for one pair of neighbouring v-borders. *)
Definition dummies (ranges : list (Q * Q)) (st : bs) (left right : nat) : list border :=
  match nth_error st left, nth_error st right with
  | Some a, Some b =>
      if negb (Nat.eqb (bd_l a) (bd_l b)) && negb (Nat.eqb (bd_u a) (bd_u b)) then []
      else match nth_error st (bd_l a), nth_error st (bd_l b), nth_error st (bd_u a), nth_error st (bd_u b) with
           | Some la, Some lb, Some ua, Some ub =>
               let lower := qmax (bd_lo la) (bd_lo lb) in
               let upper := qmin (bd_hi ua) (bd_hi ub) in
               flat_map (fun r => if qlt upper (fst r) || qlt (snd r) lower then [] else [new_border true (fst r) (snd r) left right true]) ranges
           | _, _, _, _ => []
           end
  | _, _ => []
  end.
Fixpoint neighbours (l : list nat) : list (nat * nat) :=
  match l with x :: ((y :: _) as t) => (x, y) :: neighbours t | _ => [] end.
Definition add_dummies (rorder : list (Q * Q) -> list (Q * Q)) (st : bs) : bs :=
  st ++ flat_map (fun p => dummies (rorder (h_ranges st)) st (fst p) (snd p)) (neighbours (v_sorted st)).

(** Border.py:248-294 [finalize]: borders and explicit strokes afterwards. *)
Definition finalize (rorder : list (Q * Q) -> list (Q * Q)) (strokes fills : list shape) (st : bs) : bs * list shape :=
  let '(st2, strokes') := by_strokes strokes (add_dummies rorder st) in
  let '(st3, _) := by_strokes (flat_map fill_strokes fills) st2 in
  let vs := open_borders false st3 in
  (by_layout vs (by_layout (open_borders true st3) st3), strokes').

(** Border.py:82-88 [centerline], 206-213 [to_stroke]; None for a reference border. *)
Definition centerline (st : bs) (b : border) : option rect :=
  match nth_error st (bd_l b), nth_error st (bd_u b) with
  | Some L, Some U => Some (if bd_h b then mkRect (bd_value L) (bd_value b) (bd_value U) (bd_value b)
                            else mkRect (bd_value b) (bd_value L) (bd_value b) (bd_value U))
  | _, _ => None
  end.
Definition border_to_stroke (st : bs) (b : border) : list shape :=
  if bd_ref b then []
  else match centerline st b with
       | Some r => [set_type (stroke_update_bbox (new_stroke 0 0 0 0 (bd_width b) (bd_color b) R_UNDEFINED) r) R_BORDER]
       | None => []
       end.

(* ------------------------------------------------------------------ *)
(** * Candidate borders from the lines (TablesConstructor.py:299-427) *)
(** TablesConstructor.py:317-330: top, bottom, left, right at positions 0..3. *)
Definition outer_borders (inner outer : rect) : bs :=
  [new_border true (ry0 outer) (ry0 inner) 2 3 false; new_border true (ry1 inner) (ry1 outer) 2 3 false;
   new_border false (rx0 outer) (rx0 inner) 0 1 false; new_border false (rx1 inner) (rx1 outer) 0 1 false].

(** constants.py:19. *)
Definition FACTOR_A_FEW : Q := 1 # 10.
Section Inner.
(** Iteration order of Python sets of integers. *)
Variable order : list nat -> list nat.
(** [group] never fails (theorem C15). *)
Definition groups_of (f : elem -> elem -> bool) (l : list elem) : list (list elem) :=
  match group f order l with Some g => g | None => [] end.
(** Lines.py:237-245, 248-257. *)
Definition group_by_columns (l : list elem) : list (list elem) :=
  sort_key (fun g => [rx0 (coll_bbox g)]) (groups_of (fun a b => vertically_align_with a b 0 false) l).
Definition group_by_rows (l : list elem) : list (list elem) :=
  sort_key (fun g => [ry0 (coll_bbox g)]) (groups_of (fun a b => horizontally_align_with a b FACTOR_A_FEW true) l).

(** TablesConstructor.py:401-425 for one column; [rec] is the recursive call. *)
Fixpoint rows_loop (rec : list elem -> nat -> nat -> nat -> nat -> bs -> bs) (ref : bool) (rows : list (list elem))
    (top BOTTOM left right : nat) (st : bs) : bs :=
  match rows with
  | [] => st
  | r :: rest =>
      match rest with
      | [] => rec r top BOTTOM left right st
      | r' :: _ =>
          let bottom := length st in
          rows_loop rec ref rest bottom BOTTOM left right
            (rec r top bottom left right (st ++ [new_border true (ry1 (coll_bbox r)) (ry0 (coll_bbox r')) left right ref]))
      end
  end.
(** TablesConstructor.py:380-425. *)
Fixpoint cols_loop (rec : list elem -> nat -> nat -> nat -> nat -> bs -> bs) (ref : bool) (cols : list (list elem))
    (TOP BOTTOM left RIGHT : nat) (st : bs) : bs :=
  match cols with
  | [] => st
  | c :: rest =>
      let right := match rest with [] => RIGHT | _ => length st end in
      let st1 := match rest with [] => st | c' :: _ => st ++ [new_border false (rx1 (coll_bbox c)) (rx0 (coll_bbox c')) TOP BOTTOM false] end in
      let rows := group_by_rows c in
      let st2 := if Nat.eqb (length rows) 1 then st1 else rows_loop rec ref rows TOP BOTTOM left right st1 in
      cols_loop rec ref rest TOP BOTTOM right RIGHT st2
  end.
(** TablesConstructor.py:334-427: the new borders are appended in creation order, which is the
    order of the returned collection; [fuel] bounds the depth of the recursion (BorderProof:
    the number of lines is always enough). *)
Fixpoint inner (fuel : nat) (lines : list elem) (T B L R : nat) (st : bs) : bs :=
  match fuel with
  | O => st
  | S f =>
      let cols := group_by_columns lines in
      let st1 := if Nat.leb 2 (length cols) then fold_left (fun s k => upd_at k (fun b => set_ref b false) s) [T; B; L; R] st else st in
      cols_loop (inner f) (Nat.leb (length cols) 2) cols T B L R st1
  end.

(** TablesConstructor.py:264-296 [_stream_strokes]: strokes of the table, explicit strokes afterwards. *)
Definition stream_borders (rorder : list (Q * Q) -> list (Q * Q)) (lines : list elem) (inner_box outer_box : rect) (strokes fills : list shape) : bs * list shape :=
  finalize rorder strokes fills (inner (length lines) lines 0 1 2 3 (outer_borders inner_box outer_box)).
Definition stream_strokes (rorder : list (Q * Q) -> list (Q * Q)) (lines : list elem) (inner_box outer_box : rect) (strokes fills : list shape) : list shape :=
  let st := fst (stream_borders rorder lines inner_box outer_box strokes fills) in
  filter shape_bool (flat_map (border_to_stroke st) st).

(* ------------------------------------------------------------------ *)
(** * Stream tables (TablesConstructor.py:175-254) *)
(** TablesConstructor.py:184-214 [top_bottom_boundaries]; [blocks]: boxes of the blocks in order. *)
Fixpoint boundaries (y0 y1 lower upper : Q) (blocks : list rect) : Q * Q :=
  match blocks with
  | [] => (lower, upper)
  | b :: t =>
      let lower' := if qlt (ry1 b) y0 then ry1 b else lower in
      if qlt y1 (ry0 b) then (lower', ry0 b) else boundaries y0 y1 lower' upper t
  end.
(** TablesConstructor.py:225-228. *)
Definition tight_box (ls : list elem) : rect :=
  mkRect (TableModel.list_min (map (fun e => rx0 (e_bbox e)) ls)) (TableModel.list_min (map (fun e => ry0 (e_bbox e)) ls))
         (TableModel.list_max (map (fun e => rx1 (e_bbox e)) ls)) (TableModel.list_max (map (fun e => ry1 (e_bbox e)) ls)).
Definition outer_box (page : rect) (blocks : list rect) (inner_box : rect) : rect :=
  let '(lower, upper) := boundaries (ry0 inner_box) (ry1 inner_box) (ry0 page) (ry1 page) blocks in
  mkRect (rx0 page) lower (rx1 page) upper.
(** TablesConstructor.py:236-254 for one group of lines: the table structure and whether it is accepted.
    [fills] are all table fillings: [split_with_intersection(rect.bbox)] with the default
    threshold 0 accepts each of them, or raises for a fill of area 0 (theorem C19_default_threshold_refuted of GeomProps); [None]: no stroke, table skipped. *)
Definition explicit_strokes (outer : rect) (table_strokes : list shape) : list shape :=
  filter (fun s => rcontains (rround outer) (sh_bbox s)) table_strokes.
Definition stream_table (rorder : list (Q * Q) -> list (Q * Q)) (page : rect) (blocks : list rect) (table_strokes fills : list shape)
    (clearance max_width : Q) (lines : list elem) : option parsed :=
  let ib := tight_box lines in
  let ob := outer_box page blocks ib in
  match stream_strokes rorder lines ib ob (explicit_strokes ob table_strokes) fills with
  | [] => None
  | ss => Some (parse_structure clearance max_width (sort_key shape_key ss) fills)
  end.
End Inner.
