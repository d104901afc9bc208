(** Model of Blocks.parse_spacing (page/Blocks.py:323-413): vertical space before and after the
    blocks of a page or a cell.  The horizontal part (line 357) is ParaModel; TextBlock.parse_line_spacing
    is [line_spacing] there.  [h]: the reference border is the top one (line 345).
    Tables always read from left to right (share.py:60-65).  Exceptions are [None]:
    IndexError for a text block without lines or a table without cells. *)
From Verif Require Export ParaModel.
Open Scope Q_scope.

(** A text block, a wrapped inline image, a table with the width of the top border of its first
    cell and the heights of its rows. *)
Inductive vblock :=
| VText (bb : rect) (ls : list line)
| VImage (bb : rect)
| VTable (bb : rect) (border : option Q) (heights : list Q).
Definition v_box (b : vblock) : rect := match b with VText bb _ | VImage bb | VTable bb _ _ => bb end.
Definition v_dir (b : vblock) : direction := match b with VText _ ls => block_dir ls | _ => LEFT_RIGHT end.
Definition v_is_text (b : vblock) : bool := match b with VText _ _ | VImage _ => true | VTable _ _ _ => false end.
(** before_space, after_space, line_space; new blocks have zeros (Block.py:24-26). *)
Record vspace := mkV { v_before : Q; v_after : Q; v_line : Q }.
(** Blocks.py:365-369. *)
Definition v_border (b : vblock) : option Q := match b with VTable _ w _ => match w with Some x => Some (x / 2) | None => None end | _ => Some 0 end.
(** Blocks.py:371-377. *)
Definition para_space (h : bool) (container : rect) (ref_pos dw : Q) (b : vblock) : Q :=
  let s := lo h (v_box b) - dw - ref_pos in
  let dy := qmax (hi h (v_box b) - hi h container) 0 in
  qmax (s - dy) 0.
(** Blocks.py:350-406: [prev] is the previous block with its spaces so far (the first block is its
    own [ref_block], with nothing to be set after it). *)
Fixpoint spacing_loop (h : bool) (container : rect) (prev : option (vblock * vspace)) (ref_pos : Q) (bs : list vblock) : option (list vspace) :=
  let done := match prev with None => [] | Some (_, v) => [v] end in
  match bs with
  | [] => Some done
  | b :: t =>
      match v_border b with
      | None => None
      | Some dw =>
          let space := para_space h container ref_pos dw b in
          let next := hi h (v_box b) + dw in
          match b with
          | VText bb ls =>
              match line_spacing bb ls (lo h bb - dw - ref_pos) with
              | None => None
              | Some (before, l) =>
                  option_map (app done) (spacing_loop h container (Some (b, mkV before 0 l)) next t)
              end
          | VImage _ => option_map (app done) (spacing_loop h container (Some (b, mkV space 0 0)) next t)
          | VTable _ _ _ =>
              match prev with
              | Some (p, v) =>
                  if v_is_text p then
                    option_map (app [mkV (v_before v) space (v_line v)]) (spacing_loop h container (Some (b, mkV 0 0 0)) next t)
                  else option_map (app done) (spacing_loop h container (Some (b, mkV (qmax space MINOR_DIST) 0 0)) next t)
              | None => spacing_loop h container (Some (b, mkV (qmax space 0) 0 0)) next t
              end
          end
      end
  end.
(** Blocks.py:345-348; GeomModel.coll_dir is Collection.text_direction. *)
Definition orientation (bs : list vblock) : bool := is_horizontal (coll_dir (map (fun b => mkElem 0 (v_box b) (v_dir b)) bs)).
Definition parse_spacing (container : rect) (bs : list vblock) : option (list vspace) :=
  let h := orientation bs in spacing_loop h container None (lo h container) bs.
(** Blocks.py:408-413: the last row of a table at the end. *)
Definition shrink_last (l : list Q) : list Q := match rev l with [] => [] | x :: t => rev (x - MINOR_DIST :: t) end.
Definition final_heights (bs : list vblock) : list (list Q) :=
  map (fun p => match snd p with VTable _ _ hs => if Nat.eqb (S (fst p)) (List.length bs) then shrink_last hs else hs | _ => [] end)
      (combine (seq 0 (List.length bs)) bs).
