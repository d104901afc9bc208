(** Model of the areas left out of the search for vector graphics: RawPage._preprocess_shapes
    (page/RawPage.py:137-143) and ImagesExtractor._detect_svg_contours (image/ImagesExtractor.py:
    110-118).  The page, rendered at zoom 1, is a grey image: a list of rows of pixels. *)
From Coq Require Export ZArith QArith List Bool.
From Verif Require Export RawModel.
Export ListNotations.
Open Scope Z_scope.

(** Python [int(x)] for a float: towards zero. *)
Definition int_of (q : Q) : Z := if qle 0 q then Qfloor q else Qceiling q.
(** Bounds of a slice [a:b] of [n] items (numpy and list slices): a negative bound counts from the end. *)
Definition bound (n i : Z) : Z := if i <? 0 then Z.max 0 (i + n) else Z.min i n.
Definition in_slice (n a b k : Z) : bool := (bound n a <=? k) && (k <? bound n b).
Definition grey := list (list Z).
(** [l] with the items of the slice replaced by [f] of them; [k] is the index of the first. *)
Fixpoint on_slice {A} (f : A -> A) (n a b k : Z) (l : list A) : list A :=
  match l with
  | [] => []
  | x :: t => (if in_slice n a b k then f x else x) :: on_slice f n a b (k + 1) t
  end.
Definition len {A} (l : list A) : Z := Z.of_nat (List.length l).
(** ImagesExtractor.py:117-118. *)
Definition blank (g : grey) (r : rect) : grey :=
  on_slice (fun row => on_slice (fun _ => 255) (len row) (int_of (rx0 r) - 2) (int_of (rx1 r) + 2) 0 row)
           (len g) (int_of (ry0 r) - 2) (int_of (ry1 r) + 2) 0 g.
(** ImagesExtractor.py:116. *)
Definition mask (areas : list rect) (g : grey) : grey := fold_left blank areas g.
(** RawPage.py:139-140: areas of axis-parallel paths and of pictures. *)
Definition excluded (iso : list rect) (bs : list rblock) : list rect := iso ++ map rb_box (filter is_image bs).
(** What the search for graphics gets to see. *)
Definition searched (iso : list rect) (bs : list rblock) (g : grey) : grey := mask (excluded iso bs) g.
