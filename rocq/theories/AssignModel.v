(** Model of the distribution of page contents over tables and cells:
    Blocks.assign_to_tables / _assign_block_to_tables (page/Blocks.py:203-226, 568-608),
    TableBlock.assign_blocks (table/TableBlock.py:104-113), Cell.assign_blocks
    (table/Cell.py:96-129), Cell.assign_shapes (132-140). *)
From Verif Require Export TextModel.
Open Scope Q_scope.

(** A text (or inline image) block with its lines, or a table block (an identity).
    The [pid] of a line (identity of its block, Lines.py:35-37) is not updated here. *)
Inductive block := BText (b : rect) (ls : list line) | BTable (id : nat) (b : rect).
Definition blk_bbox (b : block) : rect := match b with BText r _ => r | BTable _ r => r end.
Definition blk_lines (b : block) : list line := match b with BText _ ls => ls | BTable _ _ => [] end.
(** TextBlock() followed by add(lines) (TextBlock.py:90-94, Collection.py:154-172): lines
    without a box are ignored, the box of the block grows. *)
Definition text_block (ls : list line) : block :=
  fold_left (fun b l => match b with
                        | BText r k => if ln_bool l then BText (union_bbox r (ln_bbox l)) (k ++ [l]) else b
                        | BTable _ _ => b
                        end) ls (BText rect0 []).
(** constants.py:15-16. *)
Definition FACTOR_MOST : Q := 9 # 10.
Definition FACTOR_ALMOST : Q := 95 # 100.
(** Collection.py:253-273 on lines; None: ZeroDivisionError. *)
Fixpoint split_lines (t : rect) (ls : list line) : option (list line * list line) :=
  match ls with
  | [] => Some ([], [])
  | l :: rest =>
      if qeq (area (ln_bbox l)) 0 then None
      else match split_lines t rest with
           | None => None
           | Some (a, b) => if qle FACTOR_MOST (round2 (area (rinter (ln_bbox l) t) / area (ln_bbox l))) then Some (l :: a, b) else Some (a, l :: b)
           end
  end.
(** Blocks.py:568-608 for one block: what each table receives, and what stays on the page. *)
Definition none_of {A B} (ts : list A) : list (list B) := map (fun _ => []) ts.
Fixpoint assign_block (b : block) (ls : list line) (tables : list rect) : option (list (list block) * list block) :=
  match tables with
  | [] => Some ([], [match b with BTable _ _ => b | BText _ _ => text_block ls end])
  | t :: ts =>
      if rcontains t (blk_bbox b) then Some ([b] :: none_of ts, [])
      else let skip := match assign_block b ls ts with None => None | Some (r, k) => Some ([] :: r, k) end in
           if negb (rintersects t (blk_bbox b)) then skip
           else match b with
                | BTable _ _ => skip
                | BText _ _ =>
                    match split_lines t ls with
                    | None => None
                    | Some (ins, []) => Some ([text_block ins] :: none_of ts, [])
                    | Some (ins, outs) =>
                        match assign_block b outs ts with None => None | Some (r, k) => Some ([text_block ins] :: r, k) end
                    end
                end
  end.
(** Blocks.py:213-216. *)
Fixpoint zip_app {A} (a b : list (list A)) : list (list A) :=
  match a, b with x :: s, y :: t => (x ++ y) :: zip_app s t | _, _ => [] end.
Fixpoint assign_all (bs : list block) (tables : list rect) : option (list (list block) * list block) :=
  match bs with
  | [] => Some (none_of tables, [])
  | b :: rest =>
      match assign_block b (blk_lines b) tables, assign_all rest tables with
      | Some (r, k), Some (r', k') => Some (zip_app r r', k ++ k')
      | _, _ => None
      end
  end.

(** Cell.py:108-129: blocks added to the cell with box [c]; [layout.blocks.append] ignores a
    block without a box. *)
Definition blk_bool (b : block) : bool := rect_bool (blk_bbox b).
Definition assign_cell (c : rect) (b : block) : list block :=
  if contains c (blk_bbox b) FACTOR_ALMOST then (if blk_bool b then [b] else [])
  else if negb (rect_bool (rinter c (blk_bbox b))) then []
  else match b with
       | BTable _ _ => []
       | BText _ ls => let s := text_block (map (line_clip c) ls) in if blk_bool s then [s] else []
       end.
(** TableBlock.py:110-113, Cell.py:105; merged-away cells (no box) are skipped. *)
Definition assign_cells (cells : list rect) (bs : list block) : list (list block) :=
  map (fun c => if rect_bool c then flat_map (assign_cell c) bs else []) cells.
(** Blocks.py:203-226 [assign_to_tables]: a table is its box and the boxes of its cells; results: the
    contents of the cells of each table, and the blocks of the page before sorting (the rest, then
    the tables, numbered from [base]); blocks without a box are dropped by reset. *)
Record tbl := mkTbl { ta_bbox : rect; ta_cells : list rect }.
Fixpoint number_tables (k : nat) (ts : list tbl) : list block :=
  match ts with [] => [] | t :: r => BTable k (ta_bbox t) :: number_tables (S k) r end.
Definition assign_to_tables (base : nat) (bs : list block) (ts : list tbl) : option (list (list (list block)) * list block) :=
  match ts with
  | [] => Some ([], bs)
  | _ => match assign_all bs (map ta_bbox ts) with
         | None => None
         | Some (r, k) => Some (map (fun p => match snd p with [] => map (fun _ => []) (ta_cells (fst p)) | l => assign_cells (ta_cells (fst p)) l end) (combine ts r),
                                filter blk_bool (k ++ number_tables base ts))
         end
  end.
(** Cell.py:132-140: shapes touching the cell. *)
Definition assign_cell_shapes (c : rect) (ss : list shape) : list shape := filter (fun s => rect_bool (rinter c (sh_bbox s)) && shape_bool s) ss.
