(** Vocabulary of C84: how a character of the page looks in the Word file. *)
From Verif Require Export CutSpec PlaceSpec.
From Verif Require Import ParaSpec.
Open Scope Z_scope.

(** What a reader finds in a paragraph: characters, each with the run it is in (RunModel), and pictures. *)
Inductive wordseen := WordChar (code : Z) (r : wrun) | WordPicture (id : nat).
Definition span_word (names uris : nat -> list Z) (s : span) : list wordseen :=
  match s with
  | SText t => match write_span names uris t with Some r => map (fun c => WordChar c r) (run_text r) | None => [] end
  | SImage k _ => [WordPicture k]
  end.
Definition word_seen (names uris : nat -> list Z) (w : wordp) : list wordseen := flat_map (span_word names uris) (item_spans (wp_items w)).
(** The formats of one kind. *)
Definition of_kind (k : rtype) (sts : list style) : list style := filter (fun s => rtype_eqb (st_type s) k) sts.
(** A character (picture) of the pdf, with its formats, and what is seen of it: the same code (a carriage return is a line break), font, bold, italic, size (to half
    points), colour; struck through, marked, underlined, linked if it has such a format (links: not white space), in one of the colours
    of these formats, to the address of the first link. *)
Definition looks_as (names uris : nat -> list Z) (g : glyph * list style) (s : wordseen) : Prop :=
  match fst g, s with
  | GChar c a, WordChar code r =>
      code = (if ch_c c =? 13 then 10 else ch_c c) /\
      fonts r = [(names (at_font a), names (at_font a))] /\ bolds r = [Z.testbit (at_flags a) 4] /\ italics r = [Z.testbit (at_flags a) 1] /\
      sizes r = [round_half_even (at_size a * 2)] /\ (exists rd gr bl, colors r = [[rd; gr; bl]] /\ 65536 * rd + 256 * gr + bl = at_color a) /\
      (struck r <-> of_kind R_STRIKE (snd g) <> []) /\
      (marks r = [] <-> of_kind R_HIGHLIGHT (snd g) = []) /\ incl (marks r) (map st_color (of_kind R_HIGHLIGHT (snd g))) /\
      (underlines (at_color a) r = [] <-> of_kind R_UNDERLINE (snd g) = []) /\ incl (underlines (at_color a) r) (map st_color (of_kind R_UNDERLINE (snd g))) /\
      (of_kind R_HYPERLINK (snd g) = [] -> run_links r = []) /\
      (forall st more, of_kind R_HYPERLINK (snd g) = st :: more -> is_white (ch_c c) = false -> exists text, run_links r = [(uris (st_uri st), text)])
  | GImage k _, WordPicture k' => k' = k
  | _, _ => False
  end.
(** Text as PDF files have it, that a Word file can hold: sizes above a quarter of a point, colours, characters that XML allows. *)
Definition plain (names : nat -> list Z) (s : span) : Prop :=
  usual s /\ writable names s /\ match s with SText t => ts_chars t <> [] -> forall st, In st (ts_style t) -> color_value (st_color st) | SImage _ _ => True end.
Definition plain_text (names : nat -> list Z) (ts : list CleanModel.tblock) : Prop := forall l s, In l (lines_in ts) -> In s (ln_spans l) -> plain names s.
