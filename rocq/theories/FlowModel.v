(** Model of the layout tests that decide on stream tables and of the splitting that follows them:
    Lines.is_flow_layout, Lines.split_back (text/Lines.py:129-141, 201-234), Line.same_source_parent
    (text/Line.py:109-119), Blocks.collect_stream_lines (page/Blocks.py:228-320), Blocks.split_back
    (page/Blocks.py:461-487).  [order] is the iteration order of Python sets (any permutation).
    Tables are opaque: a name and a box. *)
From Verif Require Export CleanModel.
Open Scope Q_scope.

Inductive fblock := FText (b : tblock) | FTable (id : nat) (bb : rect).
Definition f_box (b : fblock) : rect := match b with FText t => b_bbox t | FTable _ bb => bb end.
Definition f_bool (b : fblock) : bool := rect_bool (f_box b).
(** Tables read from left to right (share.py:60-65, Element). *)
Definition f_elem (b : fblock) : elem := match b with FText t => b_elem t | FTable _ bb => mkElem 0 bb LEFT_RIGHT end.

(** Line.py:109-119. *)
Definition same_source (a b : line) : bool :=
  match ln_pid a with None => false | Some p => match ln_pid b with Some q => Nat.eqb p q | None => false end end.
(** Lines.py:211-212; constants.FACTOR_ALMOST. *)
Definition ALMOST : Q := 95 # 100.
Definition row_mate (tol : Q) (a b : line) : bool :=
  horizontally_align_with (ln_elem a) (ln_elem b) tol true && negb (vertically_align_with (ln_elem a) (ln_elem b) ALMOST true).
(** Lines.py:230-232. *)
Definition line_gap (h : bool) (prev l : line) : Q := qabs (if h then rx0 (ln_bbox l) - rx1 (ln_bbox prev) else ry1 (ln_bbox l) - ry0 (ln_bbox prev)).
Fixpoint gaps_small (h : bool) (sep : Q) (prev : line) (ls : list line) : bool :=
  match ls with [] => true | l :: t => negb (qle sep (line_gap h prev l)) && gaps_small h sep l t end.
(** Lines.py:217-232. *)
Definition row_flows (h : bool) (sep : Q) (g : list line) : bool :=
  match g with
  | [] => true
  | [_] => true
  | l0 :: t => forallb (fun l => same_source l l0) g && forallb (fun l => same_row l l0) g && gaps_small h sep l0 t
  end.
(** Lines.py:201-234. *)
Definition is_flow_layout (order : list nat -> list nat) (tol sep : Q) (ls : list line) : option bool :=
  match group (row_mate tol) order ls with
  | None => None
  | Some gs => Some (forallb (row_flows (is_horizontal (lines_dir ls)) sep) gs)
  end.
(** TextBlock.py:77-79, Block.py:165-167. *)
Definition f_flow (order : list nat -> list nat) (tol sep : Q) (b : fblock) : option bool :=
  match b with FText t => is_flow_layout order tol sep (b_lines t) | FTable _ _ => Some true end.

(** Blocks.py:475-479: blocks kept as they are, and the lines of the others (Lines.append drops
    lines without a box). *)
Fixpoint part_flow (order : list nat -> list nat) (tol sep : Q) (bs : list fblock) : option (list fblock * list line) :=
  match bs with
  | [] => Some ([], [])
  | b :: t =>
      match f_flow order tol sep b, part_flow order tol sep t with
      | Some f, Some (keep, ls) =>
          match b with
          | FText x => if f then Some (keep, filter ln_bool (b_lines x) ++ ls) else Some (b :: keep, ls)
          | FTable _ _ => Some (b :: keep, ls)
          end
      | _, _ => None
      end
  end.
(** Lines.py:129-141. *)
Definition lines_split_back (order : list nat -> list nat) (ls : list line) : option (list (list line)) :=
  option_map (map lines_sort) (group same_source order ls).
(** Blocks.py:483-485, Lines.append (Lines.py:27-37): lines without an original parent get the new
    block, [id]. *)
Definition set_pid (id : nat) (l : line) : line :=
  match ln_pid l with Some _ => l | None => mkLine (ln_bbox l) (ln_dir l) (ln_spans l) (Some id) (ln_break l) end.
Definition source_block (id : nat) (g : list line) : fblock :=
  let ls := map (set_pid id) (filter ln_bool g) in
  FText (mkBlk false (fold_left (fun r l => union_bbox r (ln_bbox l)) ls rect0) ls).
Fixpoint source_blocks (ids : nat -> nat) (k : nat) (gs : list (list line)) : list fblock :=
  match gs with [] => [] | g :: t => source_block (ids k) g :: source_blocks ids (S k) t end.
(** Collection.py:132-141, 220-228. *)
Definition sort_fblocks (bs : list fblock) : list fblock :=
  sort_key (fun b => reading_key (is_horizontal (coll_dir (map f_elem bs))) (f_elem b)) bs.
(** Blocks.py:461-487; [ids k] is the identity of the k-th new block. *)
Definition split_back (order : list nat -> list nat) (ids : nat -> nat) (tol sep : Q) (bs : list fblock) : option (list fblock) :=
  match part_flow order tol sep bs with
  | None => None
  | Some (keep, ls) =>
      match lines_split_back order ls with
      | None => None
      | Some gs => Some (sort_fblocks (filter f_bool (keep ++ source_blocks ids 0 gs)))
      end
  end.

(* ------------------------------------------------------------------ *)
(** * Candidates for stream tables *)
(** Blocks.py:257-258: the lines, with a box, of a block; a table is one line. *)
Definition table_line (bb : rect) : line := mkLine (rround bb) LEFT_RIGHT [] None false.
Definition sub_lines (b : fblock) : list line :=
  filter ln_bool (match b with FText t => b_lines t | FTable _ bb => [table_line bb] end).
(** A potential shading: its box, whether its meaning is known already, its colour. *)
Record shade := mkShade { sd_box : rect; sd_known : bool; sd_color : Z }.
Definition WHITE : Z := 16777215.
Definition dark (l : list shade) : list shade := filter (fun s => negb (Z.eqb (sd_color s) WHITE)) l.
Definition in_shade (s : shade) (b : fblock) : bool := negb (sd_known s) && contains (sd_box s) (f_box b) (9 # 10).
(** Blocks.py:304: [None]: no next block (an empty box, never aligned). *)
Definition beside_next (b : fblock) (next : option fblock) : bool :=
  match next with None => false | Some n => horizontally_align_with (f_elem b) (f_elem n) 0 true end.
(** Blocks.py:275-318, from block [b] on; [shades] are those from the j-th on. *)
Fixpoint stream_loop (order : list nat -> list nat) (tol sep : Q) (shades : list shade) (new_line : bool) (acc : list line) (bs : list fblock)
  : option (list (list line)) :=
  match bs with
  | [] => Some []
  | b :: t =>
      let next := match t with [] => None | n :: _ => Some n end in
      let '(shades', shaded) :=
        match shades with
        | [] => ([], false)
        | s :: r => if in_shade s b then (shades, true)
                    else if qlt (ry1 (sd_box s)) (match next with None => 0 | Some n => ry0 (f_box n) end) then (r, false) else (shades, false)
        end in
      let acc1 := if shaded then acc ++ sub_lines b else acc in
      let nl1 := if shaded then false else new_line in
      match (if nl1 then f_flow order tol sep b else Some true) with
      | None => None
      | Some flow =>
          let acc2 := if flow then acc1 else acc1 ++ sub_lines b in
          let nl2 := if flow then nl1 else false in
          let side := beside_next b next in
          let acc3 := if side then (if nl2 then acc2 ++ sub_lines b else acc2) ++ match next with None => [] | Some n => sub_lines n end else acc2 in
          let ends := (negb side && nl2) || match t with [] => true | _ => false end in
          if ends && negb (match acc3 with [] => true | _ => false end)
          then option_map (cons acc3) (stream_loop order tol sep shades' (negb side) [] t)
          else stream_loop order tol sep shades' (negb side) acc3 t
      end
  end.
Definition collect_stream_lines (order : list nat -> list nat) (shadings : list shade) (tol sep : Q) (bs : list fblock) : option (list (list line)) :=
  stream_loop order tol sep (dark shadings) true [] bs.
