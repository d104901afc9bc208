(** Model of Page.extract_tables (page/Page.py:159-176) and the text of tables: TableBlock.text (table/TableBlock.py:78-84),
    Cell.text (table/Cell.py:28-34), TextBlock.text (text/TextBlock.py:55-59), Line.text (text/Line.py:55-59),
    TextSpan.text (text/TextSpan.py:90-94), ImageSpan.text (image/Image.py:45-48).  A string is the list of its code
    points; blocks are those of TreeModel. *)
From Verif Require Export TreeModel.
From Coq Require Import String Ascii.
Open Scope Z_scope.

(** A string literal. *)
Fixpoint codes (s : string) : list Z :=
  match s with EmptyString => [] | String c t => Z.of_nat (nat_of_ascii c) :: codes t end.
(** str.join with a one-character separator. *)
Fixpoint join (sep : Z) (l : list (list Z)) : list Z :=
  match l with [] => [] | [x] => x | x :: t => x ++ sep :: join sep t end.
(** str.strip(). *)
Definition strip (s : list Z) : list Z := rev (drop_while is_white (rev (drop_while is_white s))).
Definition span_text (s : span) : list Z := match s with SText t => ts_text t | SImage _ _ => codes "<image>" end.
Definition line_text (l : line) : list Z := flat_map (fun s => strip (span_text s)) (ln_spans l).
Definition text_text (t : stext) : list Z := join 10 (map line_text (st_lines t)).
Definition block_text (b : sblock) : list Z := match b with ST t => text_text t | STable _ _ => codes "<NEST TABLE>" end.
Definition cell_text (c : scell) : option (list Z) :=
  match c with (None, _, _) => None | (Some _, _, bs) => Some (join 10 (map block_text bs)) end.
Definition table_text (rows : list (Q * list scell)) : list (list (option (list Z))) := map (fun row => map cell_text (snd row)) rows.
(** Page.py:159-176.  The blocks of the page, with: is it a lattice table (Block.py:62-64)? *)
Definition extract_tables (extract_stream : bool) (bs : list (bool * sblock)) : list (list (list (option (list Z)))) :=
  flat_map (fun x : bool * sblock =>
    match snd x with STable _ rows => if extract_stream || fst x then [table_text rows] else [] | ST _ => [] end) bs.
