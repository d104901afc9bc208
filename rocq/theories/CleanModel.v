(** Model of Blocks.clean_up (page/Blocks.py:133-200) and join_horizontally (416-458) on
    a page freshly loaded from the pdf, where every block is a text block or an inline
    image wrapped in one (Blocks.py:104-113, ImageBlock.py:26-46).
    TextBlock.text / text_direction / strip (text/TextBlock.py:55-74, 99-101),
    Line.text (text/Line.py:55-59), Lines.strip (text/Lines.py:144-153).
    Identities of objects are positions.  [order] is the iteration order of Python
    sets (any permutation). *)
From Verif Require Export TextModel InterModel.
Open Scope Q_scope.

(** A text block; [b_img]: its type is IMAGE (a wrapped image). *)
Record tblock := mkBlk { b_img : bool; b_bbox : rect; b_lines : list line }.
Definition b_bool (b : tblock) : bool := rect_bool (b_bbox b).
(** TextBlock.py:62-74. *)
Definition block_dir (b : tblock) : direction :=
  if existsb (fun l => dir_eqb (ln_dir l) IGNORE) (b_lines b) then IGNORE
  else match b_lines b with
       | [] => LEFT_RIGHT
       | l :: t => if forallb (fun x => dir_eqb (ln_dir x) (ln_dir l)) t then ln_dir l else LEFT_RIGHT
       end.
Definition b_elem (b : tblock) : elem := mkElem 0 (b_bbox b) (block_dir b).
(** [block.text.strip()] is not empty: spans are stripped, an image reads "<image>". *)
Definition span_says (s : span) : bool := match s with SText t => existsb (fun c => negb (is_white (ch_c c))) (ts_chars t) | SImage _ _ => true end.
Definition block_says (b : tblock) : bool := existsb (fun l => existsb span_says (ln_spans l)) (b_lines b).
(** Blocks.py:152-156; [page] is the box of the page (its margin is still zero). *)
Definition shown (page : rect) (b : tblock) : bool :=
  rintersects (b_bbox b) page && block_says b && negb (dir_eqb (block_dir b) IGNORE).
(** Blocks.py:167-171, Lines.py:144-153. *)
Definition lines_bbox (ls : list line) : rect := rround (fold_left (fun r l => runion r (ln_bbox l)) ls rect0).
Definition block_strip (b : tblock) : tblock :=
  let r := map line_strip (b_lines b) in
  mkBlk (b_img b) (if existsb snd r then rround (lines_bbox (map fst r)) else b_bbox b) (map fst r).
(** Collection.py:132-141, 220-228 on blocks. *)
Definition sort_blocks (bs : list tblock) : list tblock :=
  sort_key (fun b => reading_key (is_horizontal (coll_dir (map b_elem bs))) (b_elem b)) bs.

(** Blocks.py:181-184: the lines (with a box) of all blocks, each with the position of its
    block. *)
Fixpoint numbered (k : nat) (bs : list tblock) : list (nat * line) :=
  match bs with [] => [] | b :: t => map (pair k) (filter ln_bool (b_lines b)) ++ numbered (S k) t end.
(** ImageBlock.py:49-63, Blocks.py:193: the image in a wrapped image block. *)
Definition image_of (b : tblock) : option (nat * rect) :=
  match b_lines b with l :: _ => match ln_spans l with SImage k r :: _ => Some (k, rround r) | _ => None end | [] => None end.
(** Blocks.py:186-198: positions of the lines in groups of more than one, in order;
    every one of them that belongs to an image block makes that block floating. *)
Definition clear_box (k : nat) (bs : list tblock) : list tblock :=
  match nth_error bs k with
  | None => bs
  | Some b => firstn k bs ++ mkBlk (b_img b) (rround rect0) (b_lines b) :: skipn (S k) bs
  end.
Fixpoint float_loop (ls : list (nat * line)) (todo : list nat) (bs : list tblock) : list (option (nat * rect)) * list tblock :=
  match todo with
  | [] => ([], bs)
  | i :: t =>
      match nth_error ls i with
      | None => float_loop ls t bs
      | Some (k, _) =>
          match nth_error bs k with
          | Some b => if b_img b then let '(fl, r) := float_loop ls t (clear_box k bs) in (image_of b :: fl, r) else float_loop ls t bs
          | None => float_loop ls t bs
          end
      end
  end.
Definition identify_floats (order : list nat -> list nat) (gap : Q) (bs : list tblock) : option (list (option (nat * rect)) * list tblock) :=
  let ls := numbered 0 bs in
  match group_by_connectivity order (- gap) (- gap) (map (fun p => ln_bbox (snd p)) ls) with
  | None => None
  | Some gs => Some (float_loop ls (concat (filter (fun g => Nat.ltb 1 (List.length g)) gs)) bs)
  end.

(** Blocks.py:437-450: one text block of the lines of a group; TextBlock.add drops lines
    without a box, Lines.join resets the lines (the box only grows); the Blocks constructor
    in Collection.group drops blocks without a box. *)
Definition joined_block (overlap merging : Q) (group : list tblock) : tblock :=
  let ls := filter ln_bool (flat_map b_lines (filter b_bool group)) in
  let out := lines_join overlap merging ls in
  mkBlk false (fold_left (fun r l => union_bbox r (ln_bbox l)) out (fold_left (fun r l => union_bbox r (ln_bbox l)) ls rect0)) out.
(** Blocks.py:416-458 (there are no tables yet). *)
Definition side_by_side (a b : tblock) : bool := horizontally_align_with (b_elem a) (b_elem b) 0 false.
Definition join_horizontally (order : list nat -> list nat) (overlap merging : Q) (bs : list tblock) : option (list tblock) :=
  match group side_by_side order bs with
  | None => None
  | Some gs => Some (filter b_bool (map (joined_block overlap merging) gs))
  end.
(** Blocks.py:133-165: floating images found (in order) and the blocks. *)
Definition clean_up (order : list nat -> list nat) (page : rect) (gap overlap merging : Q) (bs : list tblock)
  : option (list (option (nat * rect)) * list tblock) :=
  match bs with
  | [] => Some ([], [])
  | _ =>
      let kept := filter (fun b => shown page b && b_bool b) bs in
      match identify_floats order gap (sort_blocks (map block_strip kept)) with
      | None => None
      | Some (fl, r) => match join_horizontally order overlap merging r with None => None | Some out => Some (fl, out) end
      end
  end.
