(** Model of pages that are shown turned: the rotation matrix of the process
    (common/Element.py:30-48, page/RawPage.py:43-71, page/Page.py:123-158, 211-216).
    The matrix is one class attribute, shared by every page of every document of the
    process: reading a page from the PDF sets it, restoring a stored page uses the one
    that was set last.
    PyMuPDF (trusted): [fitz_page.rotationMatrix] of a page that is [w] by [h] before it is
    turned, and [getText] giving boxes and writing directions before turning.
    Simplifications: a page whose raw data cannot be loaded keeps its former contents in
    the model (in the program it is left half filled and is not finalized). *)
From Verif Require Export StoreModel.
Open Scope Q_scope.
Open Scope list_scope.

(** /Rotate of a page, clockwise. *)
Inductive rotation := R0 | R90 | R180 | R270.
(** [Page.rotationMatrix] of PyMuPDF for a page of the given size before turning. *)
Definition rotation_matrix (r : rotation) (w h : Q) : matrix :=
  match r with
  | R0 => mkM 1 0 0 1 0 0
  | R90 => mkM 0 1 (-1) 0 h 0
  | R180 => mkM (-1) 0 0 (-1) w h
  | R270 => mkM 0 (-1) 1 0 0 w
  end.

(** A page of an open PDF: its matrix, and what [raw_dict] (RawPage.py:43-71) gives. *)
Record source := mkSource { src_matrix : matrix; src_raw : pyval }.
(** The process: the matrix (Element.py:30) and the pages of all Converters, numbered. *)
Record process := mkProc { pr_matrix : matrix; pr_page : nat -> page }.
Definition put (k : nat) (p : page) (f : nat -> page) : nat -> page := fun i => if Nat.eqb i k then p else f i.

Inductive op :=
| Parse (k : nat) (readable : bool)   (** [pages[k].parse()]; not readable: [raw_dict] raises (RawPage.py:49-66) *)
| Restore (k : nat) (data : pyval).   (** [Page.restore(data)], from [Converter.restore] *)

Section Run.
Variable text_length : string -> Q -> Q.
Variable writer_rect : pyval -> string -> Q -> rect.
Variable pdf : nat -> source.

(** Element.py:33-41, RawPage.py:68-71, Page.py:148, 211-215: the matrix is set after
    the page was read and before any element is made from it. *)
Definition run_op (s : process) (o : op) : process :=
  match o with
  | Parse k false => s
  | Parse k true =>
      let m := src_matrix (pdf k) in
      match restore_page text_length writer_rect m (src_raw (pdf k)) (pr_page s k) with
      | Some p => mkProc m (put k p (pr_page s))
      | None => mkProc m (pr_page s)
      end
  | Restore k v =>
      match restore_page text_length writer_rect (pr_matrix s) v (pr_page s k) with
      | Some p => mkProc (pr_matrix s) (put k p (pr_page s))
      | None => s
      end
  end.
Definition run (s : process) (os : list op) : process := fold_left run_op os s.
End Run.
(** Element.py:30, Page.py:40-51. *)
Definition started : process := mkProc identity (fun _ => new_page).

(** ImagesExtractor.py:86-101, 145-163: the raw block of a vector graphic that was found at
    [b] on the rendered page; rendering ([getPixmap], PyMuPDF) shows the page turned. *)
Definition graphic (b : rect) (png : string) : pyval :=
  PDict [("type", PNum 1); ("bbox", py_rect b); ("ext", PStr "png"); ("width", PNum 1); ("height", PNum 1); ("image", PBytes png)].

(** Line.py:66-78 [text_direction]. *)
Inductive direction := LeftRight | BottomTop | Ignore.
Definition text_direction (d : Q * Q) : direction :=
  if qeq (fst d) 1 then LeftRight else if qeq (snd d) (-1) then BottomTop else Ignore.
