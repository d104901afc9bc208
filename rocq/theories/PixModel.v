(** Model of ImagesExtractor._recover_pixmap (image/ImagesExtractor.py:209-249): the picture of an entry of the list of images
    of a page, made visible through its soft mask.  A pixmap is its colorspace ([None]: alpha values only), its size, the colour components of its pixels
    row by row and, if it has them, their alpha values.  What PyMuPDF does is input or stated here:
    - [doc]: the pixmap of an xref;
    - [fitz.Pixmap(pix, 1)]: a copy with an alpha channel;
    - [pix.setAlpha(ba)]: raises without an alpha channel and if there are fewer values than pixels, else the i-th value is the alpha of the i-th pixel; the colours of
      pixels become [faded alpha colour], where a pixel of alpha 255 keeps its colour (premultiplication);
    - [fitz.Pixmap(fitz.csRGB, pix)]: the colours converted ([rgb]), the alpha values kept. *)
From Verif Require Import PyBase.
From Coq Require Export ZArith List Bool.
Export ListNotations.
Open Scope Z_scope.

Inductive cspace := Gray | Rgb | OtherCs (name : nat).
Record pix := mkPix { p_cs : option cspace; p_w : nat; p_h : nat; p_colors : list (list Z); p_alpha : option (list Z) }.

Section Fitz.
Variable doc : nat -> pix.
Variable faded : Z -> list Z -> list Z.
Variable rgb : nat -> list Z -> list Z.

(** [pix.samples]: the bytes pixel by pixel, its alpha value after its components. *)
Definition samples (p : pix) : list Z :=
  match p_alpha p with
  | None => concat (p_colors p)
  | Some a => concat (map (fun c => fst c ++ [snd c]) (combine (p_colors p) a))
  end.
(** ImagesExtractor.py:233. *)
Definition add_alpha (p : pix) : pix :=
  mkPix (p_cs p) (p_w p) (p_h p) (p_colors p) (Some (match p_alpha p with Some a => a | None => repeat 255 (p_w p * p_h p) end)).
(** ImagesExtractor.py:237-238. *)
Definition binary (ba : list Z) : list Z := map (fun v => if 0 <? v then 255 else v) ba.
(** ImagesExtractor.py:239. *)
Definition set_alpha (ba : list Z) (p : pix) : option pix :=
  let n := (p_w p * p_h p)%nat in
  if match p_alpha p with None => true | Some _ => (List.length ba <? n)%nat end then None
  else Some (mkPix (p_cs p) (p_w p) (p_h p) (map (fun c => faded (snd c) (fst c)) (combine (p_colors p) (firstn n ba))) (Some (firstn n ba))).
(** ImagesExtractor.py:244-245. *)
Definition in_rgb (p : pix) : pix :=
  match p_cs p with
  | Some (OtherCs n) => mkPix (Some Rgb) (p_w p) (p_h p) (map (rgb n) (p_colors p)) (p_alpha p)
  | _ => p
  end.
(** ImagesExtractor.py:209-249; [x]: xref of the image, [s]: xref of its mask (0: none).  [None]: it raises. *)
Definition recover (x s : nat) : option pix :=
  let base := doc x in
  option_map in_rgb (if (0 <? s)%nat then set_alpha (binary (samples (doc s))) (add_alpha base) else Some base).
End Fitz.
