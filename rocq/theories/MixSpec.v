(** Vocabulary of C88: what a page of a mixed document is, and what is to be seen of it in the docx. *)
From Verif Require Export WholeSpec GridSpec TabSpec ColSpec HeadSpec TreeSpec.
From Verif Require TableSpec DocxModel PageModel.
From Verif Require Import CleanModel.
From Coq Require Import ZArith.
Open Scope Q_scope.

(** A page of paragraphs and pictures [ts] from the top to the bottom, with pictures [fs] on them; a page with a ruled
    table of the cells [cells], with paragraphs above and below it; or a page in two columns,
    with paragraphs above and below them. *)
Inductive plan :=
| Stacked (ts fs : list tblock)
| Ruled (g : GridSpec.grid) (r : nat -> nat -> TableSpec.region) (above : list tblock) (cells : nat -> nat -> list tblock) (below : list tblock)
| Columns (above left_column right_column below : list tblock).

Definition working_area (pm : params) (p : rawpage) (c : cleaned) : rect := PageModel.working_bbox (r_width p) (r_height p) (page_margin pm p c).
(** The page [p] is like [x]. *)
Definition fits (order : list nat -> list nat) (pm : params) (p : rawpage) (x : plan) : Prop :=
  match x with
  | Stacked ts fs => picture_page (p_image_gap pm) p ts fs /\ forall c, clean_page order pm p = Some c -> one_column (working_area pm p c) ts
  | Ruled g r above cells below =>
      (exists d, table_settings pm d g) /\ table_page (p_image_gap pm) (p_line_merging pm) p g r above cells below /\
      forall c, clean_page order pm p = Some c -> across_middle (working_area pm p c) g /\ sharing g r (c_blocks c)
  | Columns above lc rc below =>
      0 <= p_line_merging pm /\ headed_page (p_image_gap pm) (p_line_merging pm) p above lc rc below /\
      forall c, clean_page order pm p = Some c -> in_halves (working_area pm p c) lc rc /\ across_lines (working_area pm p c) (above ++ below) /\
        forall b, In b (c_blocks c) -> (forall l, In l (b_lines b) -> In l (lines_in (lc ++ rc))) -> balanced (working_area pm p c) (b_bbox b)
  end.
(** The items [content] of a Word section show the page [p] like [x]: one paragraph for each paragraph or picture, and one table for
    the table, in order; for a page in two columns one table with the columns side by side, between the paragraphs above and below. *)
Definition shows_plan (p : rawpage) (x : plan) (content : list TreeModel.ditem) : Prop :=
  match x with
  | Stacked ts fs => flat_map entry content = entries ts
  | Ruled g r above cells below =>
      flat_map entry content = entries above ++ None :: entries below /\
      exists ind hs t, In (TreeModel.DTable ind hs t) content /\ table_shown g r (r_shapes p) cells t /\ row_heights g (match below with [] => true | _ => false end) hs
  | Columns above lc rc below => flat_map entry content = entries above ++ None :: entries below /\ exists ind hs t, In (TreeModel.DTable ind hs t) content /\ columns_shown lc rc t
  end.
(** The pictures that float. *)
Definition on_text (x : plan) : list tblock := match x with Stacked _ fs => fs | Ruled _ _ _ _ _ => [] | Columns _ _ _ _ => [] end.

(** The pages, of [n], that are to be seen: those selected, unless they have no plan, in the order of the pdf. *)
Definition to_show (n : nat) (sel : list Z) (plans : nat -> option plan) : list (nat * plan) :=
  flat_map (fun i => match plans i with Some x => if in_dec Z.eq_dec (Z.of_nat i) sel then [(i, x)] else [] | None => [] end) (seq 0 n).
