(** Vocabulary of the stream-table border properties (C31, C58). *)
From Verif Require Export BorderModel.
From Coq Require Export Permutation.
Open Scope Q_scope.

(** Within one point of the valid range. *)
Definition near_range (b : border) (v : Q) : Prop := bd_lo b - 1 <= v <= bd_hi b + 1.
(** Everything about a border which finalisation must not touch. *)
Definition same_frame (b b' : border) : Prop :=
  bd_h b' = bd_h b /\ bd_lo b' = bd_lo b /\ bd_hi b' = bd_hi b /\ bd_l b' = bd_l b /\ bd_u b' = bd_u b.
(** A border may go from open to fixed, once, for a reason [P], and is then left alone. *)
Definition settled (P : border -> Q -> Q -> Z -> Prop) (b b' : border) : Prop :=
  same_frame b b' /\
  (b' = b \/ (bd_fin b = None /\ exists v, bd_fin b' = Some v /\ near_range b v /\ bd_ref b' = false /\ P b v (bd_width b') (bd_color b'))).
Definition evolves (P : border -> Q -> Q -> Z -> Prop) (st st' : bs) : Prop := Forall2 (settled P) st st'.

(** Every border has its two boundary borders, of the other orientation. *)
Definition is_dir (h : bool) (st : bs) (k : nat) : Prop := exists b, nth_error st k = Some b /\ bd_h b = h.
Definition well_formed (st : bs) : Prop := forall b, In b st -> is_dir (negb (bd_h b)) st (bd_l b) /\ is_dir (negb (bd_h b)) st (bd_u b).
(** Nothing finalised yet, hidden style. *)
Definition untouched (st : bs) : Prop := forall b, In b st -> bd_fin b = None /\ bd_width b = 0 /\ bd_color b = 0%Z.

(** Position of a stroke across its direction and its two ends along it. *)
Definition across (s : shape) : Q := if horizontal s then sh_y0 s else sh_x0 s.
Definition low_end (s : shape) : Q := if horizontal s then sh_x0 s else sh_y0 s.
Definition high_end (s : shape) : Q := if horizontal s then sh_x1 s else sh_y1 s.
(** Border [b] takes position [v] (and the style) from a stroke of its own direction, or
    the position of the end of a stroke of the other direction (keeping its style). *)
Definition from_stroke (s : shape) (b : border) (v w : Q) (c : Z) : Prop :=
  (horizontal s = bd_h b /\ v = across s /\ w = sh_width s /\ c = sh_color s) \/
  (horizontal s = negb (bd_h b) /\ (v = low_end s \/ v = high_end s) /\ w = bd_width b /\ c = bd_color b).
Definition from_strokes (ss : list shape) (b : border) (v w : Q) (c : Z) : Prop :=
  exists s, In s ss /\ sh_type s = R_UNDEFINED /\ from_stroke s b v w c.
(** [b] takes the middle of two range ends of open borders of its direction. *)
Definition from_layout (st : bs) (b : border) (v w : Q) (c : Z) : Prop :=
  w = bd_width b /\ c = bd_color b /\
  exists b1 b2 p q, In b1 st /\ In b2 st /\ bd_fin b1 = None /\ bd_fin b2 = None /\ bd_h b1 = bd_h b /\ bd_h b2 = bd_h b /\
    (p = bd_lo b1 \/ p = bd_hi b1) /\ (q = bd_lo b2 \/ q = bd_hi b2) /\ v = (p + q) / 2.
(** A stroke crosses the band of the border, and is not strictly between the bands of its
    boundary borders. *)
Definition reaches (st : bs) (b : border) (s : shape) : Prop :=
  horizontal s = bd_h b /\ near_range b (across s) /\
  forall L U, nth_error st (bd_l b) = Some L -> nth_error st (bd_u b) = Some U -> low_end s <= bd_hi L \/ bd_lo U <= high_end s.

(** Any history of finalisation requests. *)
Inductive request := ByValue (k : nat) (v : Q) | ByStroke (k : nat) (s : shape) | ByLayout (ks : list nat).
Definition serve (st : bs) (r : request) : bs :=
  match r with ByValue k v => fin_at k v st | ByStroke k s => fst (fin_stroke k s st) | ByLayout ks => by_layout ks st end.
