(** Vocabulary for the docx body. *)
From Verif Require Import DocxModel.

(** The source blocks an item stands for: (id, is it a table). *)
Definition shows (i : item) : list (nat * bool) :=
  match i with Para (PBlock id) _ => [(id, false)] | Tab id => [(id, true)] | _ => [] end.
(** What a list of blocks should show: text/image and table blocks, in order. *)
Definition should_show (bs : list block) : list (nat * bool) :=
  map (fun b => (b_id b, is_table b)) (filter (fun b => is_text_image b || is_table b) bs).
Definition is_tab (i : item) : Prop := exists id, i = Tab id.
(** Two tables never touch (Word would merge them). *)
Definition no_adjacent_tables (b : body) : Prop :=
  forall l i j r, b = l ++ i :: j :: r -> ~ (is_tab i /\ is_tab j).
Definition ends_with_table (b : body) : Prop := exists l id, b = l ++ [Tab id].
Definition images_of (i : item) : list nat := match i with Para _ fs => fs | Tab _ => [] end.
Definition is_break (i : item) : bool := match i with Para PBreak _ => true | _ => false end.
(** Content of the sections: a section ends with its break paragraph. *)
Fixpoint sections_of (cur : body) (b : body) : list body :=
  match b with
  | [] => [cur]
  | i :: t => if is_break i then (cur ++ [i]) :: sections_of [] t else sections_of (cur ++ [i]) t
  end.
