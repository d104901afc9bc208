(** Model of what pictures and links add to the Word package: Image.make_docx (image/Image.py:94-97), ImageBlock.make_docx
    (image/ImageBlock.py:84-98), add_image (common/docx.py:201-217), _CT_Anchor (common/docx.py:220-282), add_float_image
    (common/docx.py:285-301), the relation of add_hyperlink (common/docx.py:165-172), on top of python-docx (trusted): Run.add_picture,
    StoryPart.new_pic_inline, get_or_add_image, next_id, ImageParts.get_or_add_image_part, Image.scaled_dimensions,
    Part.relate_to, _Relationships.get_or_add, get_or_add_ext_rel, _next_rId, CT_Relationship.new (when saving).
    Lengths are whole English Metric Units (12700 to the point).
    Simplifications: the sha1 of python-docx is taken to tell different pictures apart; the file reader of python-docx is a function
    of the bytes. *)
From Verif Require Export PyNum Rect.
From Verif Require WordModel RunModel.
From Coq Require Export List ZArith Bool.
Export ListNotations.
Open Scope nat_scope.

Definition bytes := list Z.
Definition codes_eqb (a b : list Z) : bool := if list_eq_dec Z.eq_dec a b then true else false.
(** What docx.image.image.Image.from_file makes of a stream: width and height as the pixels and the resolution say;
    UnrecognizedImageError; another exception (end of file, invalid stream). *)
Inductive seen := Known (w h : Z) | Unknown | Broken.
(** Targets of relations of the document part: parts of the template, an image part, an address outside. *)
Inductive target := T_other (n : nat) | T_part (k : nat) | T_url (u : list Z).
Definition target_eqb (a b : target) : bool :=
  match a, b with
  | T_other m, T_other n => Nat.eqb m n
  | T_part j, T_part k => Nat.eqb j k
  | T_url u, T_url v => codes_eqb u v
  | _, _ => false
  end.
(** A picture in the text (wp:inline, [None]) or behind it (wp:anchor) at a place on the page: id, relation, size. *)
Record drawing := mkDrawing { dr_id : nat; dr_rel : nat; dr_width : Z; dr_height : Z; dr_place : option (Z * Z) }.
(** Relations (rId n is n), image parts (/word/media/image n), pictures and links (relations) of the body. *)
Record package := mkPackage { pk_rels : list (nat * target); pk_parts : list (nat * bytes); pk_drawings : list drawing; pk_links : list nat }.

(** The first number from [n] on that is not used, [fuel] of them tried. *)
Fixpoint first_free (fuel n : nat) (used : list nat) : option nat :=
  match fuel with O => None | S f => if existsb (Nat.eqb n) used then first_free f (S n) used else Some n end.
(** _Relationships._next_rId: range(1, len + 2). *)
Definition next_rid (rels : list (nat * target)) : option nat := first_free (S (List.length rels)) 1 (map fst rels).
(** Part.relate_to: an existing relation to the target, or a new one. *)
Definition relate (t : target) (pk : package) : option (nat * package) :=
  match find (fun r => target_eqb (snd r) t) (pk_rels pk) with
  | Some r => Some (fst r, pk)
  | None => match next_rid (pk_rels pk) with
            | Some n => Some (n, mkPackage (pk_rels pk ++ [(n, t)]) (pk_parts pk) (pk_drawings pk) (pk_links pk))
            | None => None
            end
  end.
(** ImageParts._next_image_partname: range(1, len + 1), else len + 1. *)
Definition next_part (parts : list (nat * bytes)) : nat :=
  match first_free (List.length parts) 1 (map fst parts) with Some n => n | None => S (List.length parts) end.
Definition get_or_add_part (b : bytes) (pk : package) : nat * package :=
  match find (fun p => codes_eqb (snd p) b) (pk_parts pk) with
  | Some p => (fst p, pk)
  | None => let k := next_part (pk_parts pk) in (k, mkPackage (pk_rels pk) (pk_parts pk ++ [(k, b)]) (pk_drawings pk) (pk_links pk))
  end.
(** StoryPart.next_id: one more than the largest id in the document; each picture has an id 0 inside too. *)
Definition next_id (pk : package) : nat := match pk_drawings pk with [] => 1 | ds => S (list_max (map dr_id ds)) end.

(** Picture written; unknown to python-docx and left out; exception. *)
Inductive outcome := Done | Left_out | Failed.
Section Write.
Variable recognise : bytes -> seen.
(** ST_PositiveCoordinate. *)
Definition coordinate (z : Z) : bool := ((0 <=? z) && (z <=? 27273042316900))%Z.
(** StoryPart.get_or_add_image, Image.scaled_dimensions(width, None), then the new element. *)
Definition put_picture (b : bytes) (w h : Z) (width : Q) (place : option (Q * Q)) (pk : package) : package * outcome :=
  let (k, pk1) := get_or_add_part b pk in
  match relate (T_part k) pk1 with
  | None => (pk1, Failed)
  | Some (r, pk2) =>
      if (w =? 0)%Z then (pk2, Failed)
      else
        let cx := WordModel.pt width in
        let cy := round_half_even (inject_Z h * (inject_Z cx / inject_Z w)) in
        if coordinate cx && coordinate cy
        then (mkPackage (pk_rels pk2) (pk_parts pk2)
                (pk_drawings pk2 ++ [mkDrawing (next_id pk2) r cx cy (option_map (fun p => (WordModel.pt (fst p), WordModel.pt (snd p))) place)]) (pk_links pk2), Done)
        else (pk2, Failed)
  end.
(** Writes: a picture of this width in the text; one behind the text with its left top corner at a place; a link. *)
Inductive write := Inline (b : bytes) (width : Q) | Floating (b : bytes) (width x y : Q) | Link (u : list Z).
(** docx.py:201-217, 285-301, 165-172. *)
Definition do_write (e : write) (pk : package) : package * outcome :=
  match e with
  | Inline b width => match recognise b with Known w h => put_picture b w h width None pk | Unknown => (pk, Left_out) | Broken => (pk, Failed) end
  | Floating b width x y => match recognise b with Known w h => put_picture b w h width (Some (x, y)) pk | _ => (pk, Failed) end
  | Link u => match relate (T_url u) pk with
              | Some (r, pk1) => (mkPackage (pk_rels pk1) (pk_parts pk1) (pk_drawings pk1) (pk_links pk1 ++ [r]), Done)
              | None => (pk, Failed)
              end
  end.
(** ImageBlock.py:84-98 (floating), Image.py:94-97 (in the text): a picture with its box on the PDF page. *)
Definition picture (float : bool) (b : bytes) (r : rect) : write :=
  if float then Floating b (rx1 r - rx0 r) (rx0 r) (ry0 r) else Inline b (rx1 r - rx0 r).
(** Writes one after the other (what raises ends a page, not the document: converter.py:115-118). *)
Fixpoint do_writes (es : list write) (pk : package) : package * list outcome :=
  match es with
  | [] => (pk, [])
  | e :: t => let (pk1, o) := do_write e pk in let (pk2, os) := do_writes t pk1 in (pk2, o :: os)
  end.
End Write.
(** Document.save: lxml refuses characters XML does not have in the address of a relation (converter.py:121). *)
Definition save (pk : package) : option package :=
  if forallb (fun r => match snd r with T_url u => forallb RunModel.xml_char u | _ => true end) (pk_rels pk) then Some pk else None.
