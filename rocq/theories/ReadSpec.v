(** Vocabulary of C89: a table of strings read from a ruled table. *)
From Verif Require Export MixSpec.
From Verif Require Import CleanModel.
From Verif Require TableSpec ExtractModel ExtractSpec.
From Coq Require Import ZArith.
Open Scope Q_scope.

(** A string read from the lines [ls]: their visible characters in order, pictures as "<image>"; nothing for no lines; and one
    line of the string for each of them, unless there are line breaks in the text of the pdf. *)
Definition string_of (ls : list line) (s : list Z) : Prop :=
  ExtractSpec.visible s = ExtractSpec.visible (ExtractSpec.text_codes (line_glyphs ls)) /\ (ls = [] -> s = []) /\
  (ls <> [] -> (forall l sp, In l ls -> In sp (ln_spans l) -> ~ In 10%Z (ExtractModel.span_text sp)) ->
    ExtractSpec.lines_of s = map (fun l => flat_map (fun sp => ExtractModel.strip (ExtractModel.span_text sp)) (ln_spans l)) ls).
(** [t] has the rows and columns of the grid: at the first place of each cell the text in it, else nothing. *)
Definition table_read (g : GridSpec.grid) (r : nat -> nat -> TableSpec.region) (cells : nat -> nat -> list tblock) (t : list (list (option (list Z)))) : Prop :=
  List.length t = g_rows g /\ forall p, (p < g_rows g)%nat -> exists row, nth_error t p = Some row /\ List.length row = g_cols g /\
    forall q i j m n, (q < g_cols g)%nat -> r p q = (i, j, m, n) ->
      (i = p /\ j = q /\ exists s, nth_error row q = Some (Some s) /\ string_of (lines_in (cells p q)) s) \/
      ((i, j) <> (p, q) /\ nth_error row q = Some None).
(** The pages with a table: a ruled one; two columns, if tables without borders are asked for ([es]). *)
Definition table_pages (es : bool) (l : list (nat * plan)) : list plan := filter (fun x => match x with Ruled _ _ _ _ _ => true | Stacked _ _ => false | Columns _ _ _ _ => es end) (map snd l).
Definition plan_read (x : plan) (t : list (list (option (list Z)))) : Prop :=
  match x with
  | Ruled g r _ cells _ => table_read g r cells t
  | Stacked _ _ => False
  | Columns _ lc rc _ => exists s0 s1, t = [[Some s0; Some s1]] /\ string_of (lines_in lc) s0 /\ string_of (lines_in rc) s1
  end.
