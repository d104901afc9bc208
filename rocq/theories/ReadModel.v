(** Model of [Converter.extract_tables] (converter.py:242-265) on the contents of the pages. *)
From Verif Require Import MixModel.
From Verif Require ConverterModel DocxModel.
From Verif Require Import ExtractModel TreeModel WholeModel.
Open Scope Z_scope.

(** common/Block.py:62-64 [is_lattice_table_block]. *)
Definition is_lattice (b : sblock) : bool := match b with STable p _ => tp_lattice p | ST _ => false end.
(** page/Page.py:159-176 [Page.extract_tables]: the tables at the top level; [es]: the setting [extract_stream_table]. *)
Definition page_tables (es : bool) (p : spage) : list (list (list (option (list Z)))) :=
  ExtractModel.extract_tables es (map (fun b => (is_lattice b, b)) (sp_blocks p)).

Section Extract.
Variable order : list nat -> list nat.
Variable rorder : list (Q * Q) -> list (Q * Q).
Variable ids : nat -> nat.
Variable pm : params.
Variable fuel : nat.
(** converter.py:242-265 [Converter.extract_tables] on a converter just opened: the pages selected are parsed, and the tables of the
    pages finished are returned, page after page. *)
Definition extract_pdf (es : bool) (rs : list rawpage) (start : Z) (end_ : option Z) (pages : list Z) : list (list (list (option (list Z)))) :=
  match snd (ConverterModel.step (ConverterModel.fresh (List.length rs) empty_page)
               (ConverterModel.OpExtract start end_ pages (fun _ => page_outcome order rorder ids pm fuel rs))) with
  | ConverterModel.RTables cs => flat_map (page_tables es) cs
  | _ => []
  end.
End Extract.
