(** Vocabulary for hiding the text of a page (C62): contents streams as operators and operands
    (PDF reference 3.7.1, 5.2: text rendering mode, operator Tr). *)
From Verif Require Export HideModel.
Open Scope string_scope.
Open Scope list_scope.

(** A token (operand or operator) with the white space after it. *)
Definition token := (string * ascii)%type.
Definition write (ts : list token) : string := fold_right (fun p acc => append (fst p) (String (snd p) acc)) "" ts.
Definition contains (p t : string) : Prop := exists u v, t = append u (append p v).
Definition positioning (t : string) : Prop := t = "BT" \/ t = "Tm" \/ t = "Td".
Definition is_positioning (t : string) : bool := String.eqb t "BT" || String.eqb t "Tm" || String.eqb t "Td".
(** The letters of the three operators occur together only as these operators. *)
Definition plain (p : token) : Prop :=
  (forall c, In c ["B"; "T"; "m"; "d"]%char -> snd p <> c) /\
  (positioning (fst p) \/ (~ contains "BT" (fst p) /\ ~ contains "Tm" (fst p) /\ ~ contains "Td" (fst p))).
(** "3 Tr" after each of the three operators. *)
Definition inserted (ts : list token) : list token :=
  flat_map (fun p => if is_positioning (fst p) then [(fst p, " "%char); ("3", " "%char); ("Tr", snd p)] else [p]) ts.
Definition showing (t : string) : bool := String.eqb t "Tj" || String.eqb t "TJ" || String.eqb t "'" || String.eqb t """".
(** Text rendering mode at each operator that shows text: [Tr] sets it to its operand, [Q]
    restores an earlier one ([saved], unknown). *)
Fixpoint modes (saved : nat -> string) (mode prev : string) (ts : list token) : list string :=
  match ts with
  | [] => []
  | (t, _) :: r =>
      if String.eqb t "Tr" then modes saved prev t r
      else if String.eqb t "Q" then modes saved (saved (List.length r)) t r
      else if showing t then mode :: modes saved mode t r
      else modes saved mode t r
  end.
(** Text is shown only between BT and ET, and there is no Q in between. *)
Fixpoint well_nested (inside : bool) (ts : list token) : Prop :=
  match ts with
  | [] => True
  | (t, _) :: r =>
      if String.eqb t "BT" then well_nested true r
      else if String.eqb t "ET" || String.eqb t "Q" then well_nested false r
      else (showing t = true -> inside = true) /\ well_nested inside r
  end.
