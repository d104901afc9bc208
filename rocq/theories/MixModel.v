(** Model of [Converter.convert] on the contents of the pages (converter.py:183-239): the pages selected by the
    arguments are parsed one by one, and the docx is made of all pages parsed. *)
From Verif Require Import TreeModel WholeModel.
From Verif Require ConverterModel DocxModel.
Open Scope Z_scope.

Section Convert.
Variable order : list nat -> list nat.
Variable rorder : list (Q * Q) -> list (Q * Q).
Variable ids : nat -> nat.
Variable pm : params.
Variable fuel : nat.

(** A page without content: page/Page.py:40-51. *)
Definition empty_page : spage := mkSPage (DocxModel.mkSection 0 0 []) [] [].

(** page/Page.py:143-156 [Page.parse] as an outcome for [Converter.parse] (converter.py:77-82): an exception, also
    RecursionError ([Deep]), is caught there and leaves the page not finalized. What such a page contains is of no effect
    and simplified to [empty_page]. *)
Definition page_outcome (rs : list rawpage) (idx : Z) : ConverterModel.outcome spage :=
  match nth_error rs (Z.to_nat idx) with
  | Some r => match parse_page order rorder ids pm fuel r with
              | Ok p => ConverterModel.Done p
              | _ => ConverterModel.FailParse empty_page
              end
  | None => ConverterModel.FailSource
  end.

(** converter.py:183-239 [Converter.convert] without multi-processing, on a converter just opened (converter.py:20-31):
    [parse] (65-84) of the selected pages (345-355), then [make_docx] (87-121). [None]: an exception reaches the caller,
    or that of a page while the docx is made (converter.py:117), which C80 is about. *)
Definition convert_docx (tpl : DocxModel.section) (rs : list rawpage) (start : Z) (end_ : option Z) (pages : list Z)
  : option (list DocxModel.section * list ditem) :=
  match snd (ConverterModel.step (ConverterModel.fresh (List.length rs) empty_page)
               (ConverterModel.OpConvert start end_ pages (fun _ => page_outcome rs) (fun _ => true))) with
  | ConverterModel.RDoc d => document_docx tpl (map (@ConverterModel.d_content _) d)
  | _ => None
  end.
End Convert.
