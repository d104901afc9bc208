(** Model of the life of one Page object over repeated parsing: Page.parse and its steps
    (page/Page.py:40-51, 123-156, 211-241), Layout.restore / clean_up / parse
    (page/Layout.py:59-63, 89-110, 66-83, 140-155), Blocks.restore and
    identify_floating_images as far as they touch the list of floating images
    (page/Blocks.py:30, 87-105, 174-200), and the cached Shapes.hyperlinks
    (shape/Shapes.py:71-76, common/share.py:78-89).
    The steps themselves (text, tables, spacing: modelled elsewhere) are arbitrary
    functions here; they can fail at any point, leaving an arbitrary layout behind.
    None of them reads the floating images of the page (grep floating_image_blocks:
    only Blocks.store, make_docx and the appending in identify_floating_images), so they
    do not get them as argument.  Simplification: the settings dict, the page id and
    size are not part of the state; debug plotting is left out. *)
From Coq Require Export List Bool Arith.
Export ListNotations.

Section Pipeline.
Variables Cfg Layout Margin Links Float : Type.
(** What the document and the algorithms give for this page. *)
Record pipeline := mkPipe {
  (** RawPage.py:43-71 and Layout.restore: blocks and shapes from the pdf; None: exception
      (before anything was changed). *)
  load : Cfg -> option Layout;
  (** Layout.py:89-110: cleaned layout, images that turned out to be floating; the flag says
      whether it came to its end. *)
  clean : Cfg -> Layout -> bool * Layout * list Float;
  (** Page.py:244-272. *)
  margin_of : Cfg -> Layout -> Margin;
  (** Layout.py:113-137: tables. *)
  tables : Cfg -> Margin -> Layout -> bool * Layout;
  (** Shapes.py:71-76: the hyperlinks among the shapes. *)
  links_of : Layout -> Links;
  (** Layout.py:147-155, 82-83: text format, spacing, cells. *)
  finish : Cfg -> Margin -> Links -> Layout -> bool * Layout }.

Record page := mkPage { p_layout : Layout; p_margin : Margin; p_floats : list Float; p_links : option Links; p_finalized : bool }.
Variable zero : Margin.
Variable empty : Layout.
(** Page.py:40-51. *)
Definition new_page : page := mkPage empty zero [] None false.

(** Page.py:143-156; the flag is false if an exception is raised. *)
Definition parse (P : pipeline) (s : Cfg) (p : page) : bool * page :=
  match load P s with
  | None => (false, p)
  | Some l0 =>
      let '(ok1, l1, fl) := clean P s l0 in
      let floats := p_floats p ++ fl in
      if negb ok1 then (false, mkPage l1 zero floats (p_links p) false)
      else
        let m := margin_of P s l1 in
        let '(ok2, l2) := tables P s m l1 in
        if negb ok2 then (false, mkPage l2 m floats (p_links p) false)
        else
          let links := match p_links p with Some k => k | None => links_of P l2 end in
          let '(ok3, l3) := finish P s m links l2 in
          if negb ok3 then (false, mkPage l3 m floats (Some links) false)
          else (true, mkPage l3 m floats (Some links) true)
  end.
(** converter.py: [parse] of one page is called once per conversion; exceptions are
    swallowed there. *)
Fixpoint history (P : pipeline) (ss : list Cfg) (p : page) : page :=
  match ss with [] => p | s :: t => history P t (snd (parse P s p)) end.
End Pipeline.
Arguments mkPipe {Cfg Layout Margin Links Float}.
Arguments load {Cfg Layout Margin Links Float}. Arguments clean {Cfg Layout Margin Links Float}. Arguments margin_of {Cfg Layout Margin Links Float}.
Arguments tables {Cfg Layout Margin Links Float}. Arguments links_of {Cfg Layout Margin Links Float}. Arguments finish {Cfg Layout Margin Links Float}.
Arguments mkPage {Layout Margin Links Float}. Arguments p_layout {Layout Margin Links Float}. Arguments p_margin {Layout Margin Links Float}.
Arguments p_floats {Layout Margin Links Float}. Arguments p_links {Layout Margin Links Float}. Arguments p_finalized {Layout Margin Links Float}.
Arguments new_page {Layout Margin Links Float}. Arguments parse {Cfg Layout Margin Links Float}. Arguments history {Cfg Layout Margin Links Float}.
