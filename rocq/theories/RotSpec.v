(** What turning a page means, for the reader of the page. *)
From Verif Require Export RotModel.
Open Scope Q_scope.
Open Scope list_scope.

(** Where the point (x, y) of a [w] by [h] page is seen when the page is turned clockwise. *)
Definition seen (r : rotation) (w h : Q) (p : Q * Q) : Q * Q :=
  let '(x, y) := p in
  match r with R0 => (x, y) | R90 => (h - y, x) | R180 => (w - x, h - y) | R270 => (y, w - x) end.
(** Which way an arrow points then. *)
Definition seen_arrow (r : rotation) (p : Q * Q) : Q * Q :=
  let '(x, y) := p in
  match r with R0 => (x, y) | R90 => (- y, x) | R180 => (- x, - y) | R270 => (y, - x) end.
(** Size of the page as it is seen. *)
Definition seen_size (r : rotation) (w h : Q) : Q * Q := match r with R0 | R180 => (w, h) | R90 | R270 => (h, w) end.

Definition inside (p : Q * Q) (b : rect) : Prop := rx0 b <= fst p <= rx1 b /\ ry0 b <= snd p <= ry1 b.
(** [b'] is seen where [b] is. *)
Definition seen_box (r : rotation) (w h : Q) (b b' : rect) : Prop := forall p, inside (seen r w h p) b' <-> inside p b.

(** The same raw page, with every box, baseline origin and direction of its text and pictures as it is seen. *)
Definition turn_box (r : rotation) (w h : Q) (v : pyval) : pyval :=
  match as_rect v with
  | Some (mkRect x0 y0 x1 y1) =>
      py_rect (match r with
               | R0 => mkRect x0 y0 x1 y1
               | R90 => mkRect (h - y1) x0 (h - y0) x1
               | R180 => mkRect (w - x1) (h - y1) (w - x0) (h - y0)
               | R270 => mkRect y0 (w - x1) y1 (w - x0)
               end)
  | None => v
  end.
Definition turn_dir (r : rotation) (v : pyval) : pyval :=
  match as_point v with Some p => py_point (seen_arrow r p) | None => v end.
Definition turn_point (r : rotation) (w h : Q) (v : pyval) : pyval :=
  match as_point v with Some p => py_point (seen r w h p) | None => v end.
(** Entries of a raw page that hold further text. *)
Definition container (k : string) : bool := existsb (String.eqb k) ["blocks"; "lines"; "spans"; "chars"; "rows"; "cells"]%string.
Section Turned.
Variables (r : rotation) (w h : Q).
Fixpoint turned (v : pyval) : pyval :=
  match v with
  | PList l => PList (map turned l)
  | PDict d => PDict (map (fun kv => (fst kv, if String.eqb (fst kv) "bbox" then turn_box r w h (snd kv)
                                              else if String.eqb (fst kv) "dir" then turn_dir r (snd kv)
                                              else if String.eqb (fst kv) "origin" then turn_point r w h (snd kv)
                                              else if container (fst kv) then turned (snd kv) else snd kv)) d)
  | _ => v
  end.
End Turned.

(** No piece of text has a font without a name. *)
Fixpoint fonts_named (v : pyval) : Prop :=
  match v with
  | PList l => fold_right (fun x acc => fonts_named x /\ acc) True l
  | PDict d => (forall f, assoc "font" d = Some (PStr f) -> unnamed f = false) /\
               fold_right (fun kv acc => (if container (fst kv) then fonts_named (snd kv) else True) /\ acc) True d
  | _ => True
  end.

(** A page without the baseline origins of its characters (they are kept for measuring
    nameless fonts only). *)
Definition bare_char (c : char) : char := mkChar (c_box c) (c_c c) PNone.
Definition bare_span (s : span) : span :=
  match s with
  | TSpan t => TSpan (mkTSpan (s_box t) (s_color t) (s_font t) (s_size t) (s_flags t) (map bare_char (s_chars t)) (s_style t))
  | ISpan i => ISpan i
  end.
Definition bare_line (l : line) : line := mkLine (l_box l) (l_wmode l) (l_dir l) (l_break l) (map bare_span (l_spans l)).
Fixpoint bare_block (b : block) : block :=
  match b with
  | TextB t x a ls => TextB t x a (map bare_line ls)
  | ImgB t a i => ImgB t a i
  | TableB t x a rows => TableB t x a (map bare_row rows)
  end
with bare_row (r : row) : row := match r with Row x h cs => Row x h (map bare_cell cs) end
with bare_cell (c : cell) : cell :=
  match c with Cell x a b c' d bs fs ss => Cell x a b c' d (map bare_block bs) (map bare_block fs) ss end.
Definition bare_page (p : page) : page :=
  mkPage (p_id p) (p_width p) (p_height p) (p_margin p) (map bare_block (p_blocks p)) (map bare_block (p_floats p)) (p_shapes p).

(** The operations that concern page [k]. *)
Definition concerns (k : nat) (o : op) : bool :=
  match o with Parse i true => Nat.eqb i k | Parse _ false => false | Restore i _ => Nat.eqb i k end.
