(** Model of the image bytes of Image (image/Image.py): construction from a raw
    dict (lines 30-42), [from_image] (51-62) and [store_image] (65-79), with
    Python's base64 codec.  A Coq [string] is a sequence of bytes here (for the
    stored text: of ASCII characters). *)
From Coq Require Export String Ascii.
From Coq Require Import NArith List.
Import ListNotations.
Open Scope N_scope.

Definition alphabet : string := "ABCDEFGHIJKLMNOPQRSTUVWXYZabcdefghijklmnopqrstuvwxyz0123456789+/".
(** Character of a 6-bit value. *)
Definition sextet (n : N) : ascii := match String.get (N.to_nat n) alphabet with Some c => c | None => "="%char end.
(** [base64.b64encode] (binascii.b2a_base64 without newline): groups of three
    bytes become four characters, the last group is padded with [=]. *)
Fixpoint b64encode (s : string) : string :=
  match s with
  | EmptyString => EmptyString
  | String a EmptyString =>
      let x := N_of_ascii a in
      String (sextet (x / 4)) (String (sextet (x mod 4 * 16)) (String "=" (String "=" EmptyString)))
  | String a (String b EmptyString) =>
      let x := N_of_ascii a in
      let y := N_of_ascii b in
      String (sextet (x / 4)) (String (sextet (x mod 4 * 16 + y / 16)) (String (sextet (y mod 16 * 4)) (String "=" EmptyString)))
  | String a (String b (String c t)) =>
      let x := N_of_ascii a in
      let y := N_of_ascii b in
      let z := N_of_ascii c in
      String (sextet (x / 4)) (String (sextet (x mod 4 * 16 + y / 16))
        (String (sextet (y mod 16 * 4 + z / 64)) (String (sextet (z mod 64)) (b64encode t))))
  end.

(** Value of a character, [None] outside the alphabet. *)
Fixpoint index_from (k : N) (c : ascii) (s : string) : option N :=
  match s with
  | EmptyString => None
  | String d t => if Ascii.eqb c d then Some k else index_from (k + 1) c t
  end.
Definition value (c : ascii) : option N := index_from 0 c alphabet.
(** [base64.b64decode] (binascii.a2b_base64, non-strict): [quad] characters of the
    current group seen, [left] the bits carried over, [pads] the [=] in a row.
    Foreign characters are skipped; a complete padding ends the input; [None] is
    binascii.Error (incorrect padding). *)
Fixpoint b64loop (s : string) (quad left pads : N) : option string :=
  match s with
  | EmptyString => if quad =? 0 then Some EmptyString else None
  | String c t =>
      if Ascii.eqb c "=" then
        if 2 <=? quad then
          if 4 <=? quad + (pads + 1) then Some EmptyString else b64loop t quad left (pads + 1)
        else b64loop t quad left pads
      else match value c with
           | None => b64loop t quad left pads
           | Some v =>
               match quad with
               | 0 => b64loop t 1 v 0
               | 1 => option_map (String (ascii_of_N (left * 4 + v / 16))) (b64loop t 2 (v mod 16) 0)
               | 2 => option_map (String (ascii_of_N (left * 16 + v / 4))) (b64loop t 3 (v mod 4) 0)
               | _ => option_map (String (ascii_of_N (left * 64 + v))) (b64loop t 0 0 0)
               end
           end
  end.
Definition b64decode (s : string) : option string := b64loop s 0 0 0.
