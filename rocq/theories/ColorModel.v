(** Model of the colour functions of common/share.py:129-176 and of the colour
    attributes written by common/docx.py:107-146,351-362.
    Simplification: components are exact rationals instead of floats. *)
From Verif Require Export PyNum.
Open Scope Z_scope.

(** [hex(v)[2:]] for v >= 0: hexadecimal digits, most significant first ('0' for 0).
    [fuel] bounds the number of digits (always enough, ColorProof). *)
Fixpoint hex_loop (fuel : nat) (v : Z) (acc : list Z) : list Z :=
  match fuel with
  | O => acc
  | S f => if v <? 16 then v :: acc else hex_loop f (v / 16) (v mod 16 :: acc)
  end.
Definition hex_digits (v : Z) : list Z := hex_loop (S (Z.to_nat (Z.log2 v))) v [].
(** [s.zfill(6)]. *)
Definition zfill (n : nat) (s : list Z) : list Z := repeat 0 (n - length s) ++ s.
(** share.py:137, docx.py:132,144,361: [hex(srgb)[2:].zfill(6)].  For a negative
    number hex() starts with '-0x', so the text contains the letter x: None. *)
Definition hex6 (v : Z) : option (list Z) := if v <? 0 then None else Some (zfill 6 (hex_digits v)).

(** share.py:129-138 [rgb_component]; None = ValueError of int('x..', 16). *)
Definition rgb_component (v : Z) : option (list Z) :=
  match hex6 v with
  | Some (a :: b :: c :: d :: e :: f :: _) => Some [16 * a + b; 16 * c + d; 16 * e + f]
  | _ => None
  end.

(** share.py:141-146 [rgb_to_value]; [16**(4-2*i)] is 65536, 256, 1 for the three
    positions the callers use (negative powers, i >= 3, never occur: every call
    passes three numbers). *)
Fixpoint rgb_sum (w : Z) (rgb : list Q) : Z :=
  match rgb with
  | [] => 0
  | x :: t => qtrunc (x * 255)%Q * w + rgb_sum (w / 256) t
  end.
Definition rgb_to_value (rgb : list Q) : Z := rgb_sum 65536 rgb.

(** share.py:149-155 [cmyk_to_rgb]. *)
Definition cmyk_to_rgb (c m y k scale : Q) : Z :=
  rgb_to_value [((1 - c / scale) * (1 - k / scale))%Q; ((1 - m / scale) * (1 - k / scale))%Q; ((1 - y / scale) * (1 - k / scale))%Q].

(** share.py:158-176 [rgb_value]. *)
Definition rgb_value (components : list Q) : Z :=
  match components with
  | [c; m; y; k] => cmyk_to_rgb c m y k 1
  | [r; g; b] => rgb_to_value [r; g; b]
  | [g] => rgb_to_value [g; g; g]
  | _ => 0
  end.

(** Result of docx.py:107-134 [set_char_shading]: a predefined highlight index
    or a <w:shd> fill text. *)
Inductive highlight := RED | BRIGHT_GREEN | BLUE | YELLOW | PINK | TURQUOISE.
Inductive shading := Highlight (h : highlight) | Fill (digits : option (list Z)).
(** docx.py:119-126. *)
Definition color_map : list (Z * highlight) :=
  [(rgb_value [1; 0; 0]%Q, RED); (rgb_value [0; 1; 0]%Q, BRIGHT_GREEN); (rgb_value [0; 0; 1]%Q, BLUE);
   (rgb_value [1; 1; 0]%Q, YELLOW); (rgb_value [1; 0; 1]%Q, PINK); (rgb_value [0; 1; 1]%Q, TURQUOISE)].
Fixpoint lookup (v : Z) (m : list (Z * highlight)) : option highlight :=
  match m with [] => None | (k, h) :: t => if v =? k then Some h else lookup v t end.
Definition set_char_shading (v : Z) : shading :=
  match lookup v color_map with Some h => Highlight h | None => Fill (hex6 v) end.
(** docx.py:137-146 [set_char_underline], docx.py:351-362 [set_cell_shading]: the colour text. *)
Definition color_attribute (v : Z) : option (list Z) := hex6 v.
