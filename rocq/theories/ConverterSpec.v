(** Vocabulary for the statements about page selection and conversion.
    Nothing here refers to the algorithms of the model except for the data
    types of pages, outcomes and API calls. *)
From Verif Require Import PyBase ConverterModel.
From Coq Require Import Ascii.
Open Scope Z_scope.

(** [Subseq l1 l2]: [l1] is [l2] with some elements left out. *)
Inductive Subseq {A} : list A -> list A -> Prop :=
| sub_nil : Subseq [] []
| sub_skip x l1 l2 : Subseq l1 l2 -> Subseq l1 (x :: l2)
| sub_take x l1 l2 : Subseq l1 l2 -> Subseq (x :: l1) (x :: l2).

(** Strictly increasing list of integers. *)
Inductive Increasing : list Z -> Prop :=
| inc_nil : Increasing []
| inc_one x : Increasing [x]
| inc_cons x y l : x < y -> Increasing (y :: l) -> Increasing (x :: y :: l).

(** A bound given by the user: negative values count from the end. *)
Definition user_bound (n v : Z) : Z := if v <? 0 then n + v else v.

(** Did parsing succeed? *)
Definition succeeded {C} (o : outcome C) : bool :=
  match o with Done _ => true | _ => false end.

(** Effect of one event on the "page is finished" flag. *)
Inductive event := ESuccess | EBroken | ENoEffect.
Definition event_of {C} (o : outcome C) : event :=
  match o with
  | Done _ => ESuccess
  | FailParse _ => EBroken
  | FailSource | FailRestore _ => ENoEffect
  end.
(** A page is finished iff there was a success and nothing broke it later. *)
Fixpoint finished (past_first : list event) : bool :=
  match past_first with
  | [] => false
  | ESuccess :: _ => true
  | EBroken :: _ => false
  | ENoEffect :: t => finished t
  end.

(** Events on page [k] of an [n]-page document caused by one API call, oldest
    first. *)
Fixpoint parse_events {C} (n : Z) (k : nat) (orc : nat -> Z -> outcome C) (i : nat) (ix : list Z) : list event :=
  match ix with
  | [] => []
  | idx :: t =>
      match norm_index n idx with
      | Some k' => if Nat.eqb k' k then [event_of (orc i idx)] else []
      | None => []
      end ++ parse_events n k orc (S i) t
  end.
Fixpoint restore_events {C} (n : Z) (k : nat) (data : list (stored C)) : list event :=
  match data with
  | [] => []
  | s :: t =>
      match norm_index n (match s_id _ s with None => -1 | Some i => i end) with
      | None => []
      | Some k' =>
          if s_ok _ s then (if Nat.eqb k' k then [ESuccess] else []) ++ restore_events n k t
          else []
      end
  end.
Definition op_events {C} (n : Z) (k : nat) (o : op C) : list event :=
  match o with
  | OpParse ix orc => parse_events n k orc 0 (parse_indexes n ix)
  | OpConvert s e ps orc _ => parse_events n k orc 0 (parse_indexes n (page_indexes s e ps n))
  | OpExtract s e ps orc => parse_events n k orc 0 (parse_indexes n (page_indexes s e ps n))
  | OpMakeDocx _ => []
  | OpStore => []
  | OpRestore data => restore_events n k data
  end.
Definition history_events {C} (n : Z) (k : nat) (ops : list (op C)) : list event :=
  flat_map (op_events n k) ops.

(** Page content at position [k] ([d] is never used for valid positions). *)
Definition content_at {C} (d : C) (st : list (page C)) (k : nat) : C :=
  match nth_error st k with Some p => p_content p | None => d end.
Definition finished_at {C} (st : list (page C)) (k : nat) : bool :=
  match nth_error st k with Some p => p_final p | None => false end.

(** Stored data handed to [restore] (all entries readable). *)
Definition as_stored {C} (l : list (Z * C)) : list (stored C) :=
  map (fun d => mkStored (Some (fst d)) (snd d) true) l.
(** Finished pages carry their own page number. *)
Definition ids_ok {C} (st : list (page C)) : Prop :=
  forall k pg, nth_error st k = Some pg -> p_final pg = true -> p_id pg = Z.of_nat k.
(** API calls other than restore. *)
Definition no_restore {C} (o : op C) : Prop := match o with OpRestore _ => False | _ => True end.

(** Occurrence of ".pdf" in a path. *)
Definition dot_pdf : list ascii := ["."; "p"; "d"; "f"]%char.
Definition dot_docx : list ascii := ["."; "d"; "o"; "c"; "x"]%char.
Definition contains_pdf (s : list ascii) : Prop := exists a b, s = a ++ dot_pdf ++ b.
(** Pieces glued together with a separator. *)
Fixpoint glue (sep : list ascii) (pieces : list (list ascii)) : list ascii :=
  match pieces with
  | [] => []
  | [p] => p
  | p :: t => p ++ sep ++ glue sep t
  end.
