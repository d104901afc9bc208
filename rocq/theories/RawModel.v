(** Model of what RawPage reads from a pdf page (page/RawPage.py:43-171) and of
    ImagesExtractor.extract_images / extract_vector_graphics (image/ImagesExtractor.py:22-101,
    145-163).  What PyMuPDF and opencv deliver (blocks, image list, pixmaps, drawings, contours,
    links) is input; a pixmap is its png bytes with its size.  Bytes are a Coq [string].
    [hash] is Python's hash of the bytes of an image (any function).  The fields of a block
    that the code does not touch are [rb_rest].  Dicts shared between the block list and
    the groups are positions in the block list. *)
From Verif Require Export Rect.
From Verif Require Import PyBase InterModel.
From Coq Require Export String Ascii.
Open Scope Q_scope.
Open Scope list_scope.

(** A raw block: type 0 text, 1 image, -1 deleted. *)
Record rblock := mkRB { rb_type : Z; rb_box : rect; rb_bytes : string; rb_rest : string }.
Definition set_type (z : Z) (b : rblock) : rblock := mkRB z (rb_box b) (rb_bytes b) (rb_rest b).
Definition set_image (s : string) (b : rblock) : rblock := mkRB 1 (rb_box b) s (rb_rest b).
Definition is_image (b : rblock) : bool := Z.eqb (rb_type b) 1.

(* ---------------- extraction of images ---------------- *)
(** [fitz.Pixmap]: whether it has a colorspace, its png data, its size (printed). *)
Record pixmap := mkPix { px_color : bool; px_png : string; px_size : string }.
(** An entry of [getImageList]: its box (None: getImageBbox raises ValueError) and the
    pixmap [_recover_pixmap] makes of it. *)
Record item := mkItem { it_box : option rect; it_pix : pixmap }.
(** ImagesExtractor.py:145-163. *)
Definition to_raw (p : pixmap) (b : rect) : rblock := mkRB 1 b (px_png p) (px_size p).
(** ImagesExtractor.py:41-67; [clip] renders an area of the page. *)
Fixpoint extract_images (page : rect) (clip : rect -> pixmap) (items : list item) : list rblock :=
  match items with
  | [] => []
  | i :: t =>
      match it_box i with
      | None => extract_images page clip t
      | Some b =>
          if negb (rintersects b page) then extract_images page clip t
          else to_raw (if px_color (it_pix i) then it_pix i else clip (rinter b page)) b :: extract_images page clip t
      end
  end.

(* ---------------- matching with the blocks of the page ---------------- *)
Section Hash.
Variable hash : string -> Z.
(** RawPage.py:101-105: corners rounded to integers. *)
Definition place (b : rblock) : list Z := map round_half_even (rcoords (rb_box b)).
Definition same_place (a b : rblock) : bool := if list_eq_dec Z.eq_dec (place a) (place b) then true else false.
(** RawPage.py:95-99: groups of positions, in the order of their first member (dict). *)
Fixpoint add_group (h : Z) (k : nat) (gs : list (Z * list nat)) : list (Z * list nat) :=
  match gs with
  | [] => [(h, [k])]
  | (h', l) :: t => if Z.eqb h h' then (h', l ++ [k]) :: t else (h', l) :: add_group h k t
  end.
Fixpoint groups_from (k : nat) (bs : list rblock) (gs : list (Z * list nat)) : list (Z * list nat) :=
  match bs with
  | [] => gs
  | b :: t => groups_from (S k) t (if is_image b then add_group (hash (rb_bytes b)) k gs else gs)
  end.
Definition deleted (bs : list rblock) : list rblock := map (fun b => if is_image b then set_type (-1) b else b) bs.
(** RawPage.py:101-105. *)
Definition same_images (r : rblock) (bs : list rblock) (l : list nat) : bool :=
  existsb (fun k => match nth_error bs k with Some b => same_place b r | None => false end) l.
Fixpoint update_at (k : nat) (f : rblock -> rblock) (bs : list rblock) : list rblock :=
  match bs, k with
  | [], _ => []
  | b :: t, O => f b :: t
  | b :: t, S k' => b :: update_at k' f t
  end.
(** RawPage.py:113-123. *)
Fixpoint match_images (gs : list (Z * list nat)) (recovered bs : list rblock) : list rblock :=
  match recovered with
  | [] => bs
  | r :: t =>
      match find (fun g => same_images r bs (snd g)) gs with
      | Some g => match_images gs t (fold_left (fun acc k => update_at k (set_image (rb_bytes r)) acc) (snd g) bs)
      | None => match_images gs t (bs ++ [r])
      end
  end.
Definition preprocess_images (recovered bs : list rblock) : list rblock :=
  match_images (groups_from 0 bs []) recovered (deleted bs).
End Hash.

(* ---------------- vector graphics, hyperlinks ---------------- *)
(** ImagesExtractor.py:86-101: contours that overlap are one image ([group] with
    [a.bbox & b.bbox], here [order] is the iteration order of Python sets); [union] of the
    boxes is [Collection.bbox]. *)
Definition clip_groups (clip : rect -> pixmap) (gs : list (list rect)) : list rblock :=
  map (fun g => let b := rround (fold_left runion g rect0) in to_raw (clip b) b) gs.
(** ImagesExtractor.py:131-142: contours without a box are not appended; coordinates are
    integers. *)
Definition contour_boxes (cs : list (Z * Z * Z * Z)) : list rect :=
  filter rect_bool (map (fun c => match c with (x, y, w, h) => rround (mkRect (inject_Z x) (inject_Z y) (inject_Z (x + w)) (inject_Z (y + h))) end) cs).
Definition vector_images (order : list nat -> list nat) (clip : rect -> pixmap) (cs : list (Z * Z * Z * Z)) : option (list rblock) :=
  match group (fun a b => rect_bool (rinter a b)) order (contour_boxes cs) with
  | None => None
  | Some gs => Some (clip_groups clip gs)
  end.
(** RawPage.py:152-171. *)
Record link := mkLink { lk_kind : Z; lk_from : rect; lk_uri : string }.
Fixpoint preprocess_hyperlinks (ls : list link) : list (rect * string) :=
  match ls with
  | [] => []
  | l :: t => if negb (Z.eqb (lk_kind l) 2) then preprocess_hyperlinks t else (lk_from l, lk_uri l) :: preprocess_hyperlinks t
  end.
