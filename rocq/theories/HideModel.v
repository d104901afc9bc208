(** Model of ImagesExtractor._hide_page_text (image/ImagesExtractor.py:166-183), run before an
    area of the page is rendered to a picture (186-205): the contents streams of the page are
    rewritten in the document.  Bytes are a Coq [string].  All patterns have two characters. *)
From Coq Require Export String Ascii List Bool.
Export ListNotations.
Open Scope string_scope.
Open Scope list_scope.

(** [s.replace(ab, ab + " 3 Tr")]: left to right, occurrences do not overlap. *)
Fixpoint mark (a b : ascii) (s : string) : string :=
  match s with
  | String x ((String y t) as r) =>
      if Ascii.eqb x a && Ascii.eqb y b then String x (String y (append " 3 Tr" (mark a b t)))
      else String x (mark a b r)
  | _ => s
  end.
(** ImagesExtractor.py:180-182. *)
Definition hide (s : string) : string := mark "T" "d" (mark "T" "m" (mark "B" "T" s)).
(** ImagesExtractor.py:178-183: a document is its streams; a page is the list of its stream numbers. *)
Fixpoint set_nth (k : nat) (v : string) (l : list string) : list string :=
  match l, k with
  | [], _ => []
  | _ :: t, O => v :: t
  | x :: t, S k' => x :: set_nth k' v t
  end.
Definition hide_page_text (page : list nat) (doc : list string) : list string :=
  fold_left (fun d x => match nth_error d x with Some s => set_nth x (hide s) d | None => d end) page doc.
