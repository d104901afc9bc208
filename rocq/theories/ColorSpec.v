(** Vocabulary for colours: what a text of hexadecimal digits denotes, and when
    it is a legal Word colour (ST_HexColorRGB: exactly six digits). *)
From Coq Require Import ZArith List.
Import ListNotations.
Open Scope Z_scope.
Definition is_hex (l : list Z) : Prop := forall d, In d l -> 0 <= d < 16.
(** Value of digits, most significant first. *)
Definition denotes (l : list Z) : Z := fold_left (fun a d => 16 * a + d) l 0.
Definition word_color (l : list Z) (v : Z) : Prop := length l = 6%nat /\ is_hex l /\ denotes l = v.
