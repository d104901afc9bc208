(** Vocabulary of C87. *)
From Verif Require Export PixModel.
Open Scope Z_scope.

(** All pixels are there. *)
Definition sized (p : pix) : Prop :=
  List.length (p_colors p) = (p_w p * p_h p)%nat /\ match p_alpha p with Some a => List.length a = (p_w p * p_h p)%nat | None => True end.
(** A mask: one gray value between 0 and 255 per pixel; [value m i]: of the i-th pixel, row by row. *)
Definition is_mask (p : pix) : Prop := sized p /\ p_alpha p = None /\ forall c, In c (p_colors p) -> exists v, c = [v] /\ 0 <= v <= 255.
Definition value (p : pix) (i : nat) : option Z := match nth_error (p_colors p) i with Some [v] => Some v | _ => None end.
(** Alpha of the i-th pixel: 255 (opaque) without an alpha channel. *)
Definition alpha (p : pix) (i : nat) : option Z :=
  match p_alpha p with Some a => nth_error a i | None => if (i <? p_w p * p_h p)%nat then Some 255 else None end.
(** The colour spaces png files are written in. *)
Definition writable_space (p : pix) : Prop := p_cs p = None \/ p_cs p = Some Gray \/ p_cs p = Some Rgb.
(** The colour of a pixel in the picture recovered: as it was in gray and RGB pictures, else converted. *)
Definition shown_colour (rgb : nat -> list Z -> list Z) (cs : option cspace) (c : list Z) : list Z := match cs with Some (OtherCs n) => rgb n c | _ => c end.
(** The same size and colour space as before, or RGB. *)
Definition same_picture (p r : pix) : Prop := p_w r = p_w p /\ p_h r = p_h p /\ writable_space r /\ (p_cs r = None <-> p_cs p = None) /\ sized r.
