(** Model of Converter.make_docx with pages that raise while they are written (converter.py:108-121, Page.py:179-208, Blocks.py:501-559):
    the exception is caught, what the page has written so far stays, and the next page follows. *)
From Verif Require Export DocxModel.
Open Scope nat_scope.

(** Where a page raises, if at all: in block [k], after its paragraph or table was added (Blocks.py:524-535, 507-520);
    or in floating picture [n], after those before were anchored (Blocks.py:556-559).
    Simplification: what is inside the failing paragraph or table is opaque. *)
Inductive trouble := Fine | InBlock (k : nat) | InFloat (n : nat).
Definition blocks_try (t : trouble) (bs : list block) (imgs : list nat) (b : body) : body :=
  match t with
  | Fine => blocks_make_docx InDoc bs imgs b
  | InBlock k => make_flow InDoc (firstn (S k) bs) false b
  | InFloat n => add_floats (firstn n imgs) (add_trailing (rev bs) (make_flow InDoc bs false b))
  end.
(** Page.py:192-208. *)
Definition page_try (d : document) (pt : page * trouble) : document :=
  let (p, t) := pt in
  let d1 := if no_paragraphs (d_body d)
            then mkDoc (d_body d) (p_section p :: tl (d_sections d))
            else mkDoc (add_paragraph PBreak (d_body d)) (d_sections d ++ [p_section p]) in
  mkDoc (blocks_try t (p_blocks p) (p_floats p) (d_body d1)) (d_sections d1).
(** converter.py:109-118. *)
Definition make_pages_try (template : section) (pts : list (page * trouble)) : document := fold_left page_try pts (mkDoc [] [template]).
