From Verif Require Export FailModel DocxSpec.
Open Scope nat_scope.

(** The blocks of the page up to the one that raised; its floating pictures up to the one that raised. *)
Definition begun (pt : page * trouble) : list block := match snd pt with InBlock k => firstn (S k) (p_blocks (fst pt)) | _ => p_blocks (fst pt) end.
Definition begun_floats (pt : page * trouble) : list nat :=
  match snd pt with Fine => p_floats (fst pt) | InBlock _ => [] | InFloat n => firstn n (p_floats (fst pt)) end.
(** Only blocks that are written can raise. *)
Definition possible (pt : page * trouble) : Prop :=
  (forall b, In b (p_blocks (fst pt)) -> b_type b <> UNDEFINED) /\
  forall k, snd pt = InBlock k -> exists x, nth_error (p_blocks (fst pt)) k = Some x /\ is_text_image x || is_table x = true.
(** Raised in a table before the page had any paragraph: the first block is this table, with less than 0.7 pt before it. *)
Definition in_first_table (pt : page * trouble) : Prop :=
  exists k x, snd pt = InBlock k /\ filter (fun b => is_text_image b || is_table b) (firstn (S k) (p_blocks (fst pt))) = [x] /\ is_table x = true /\ (b_before x < 7 # 10)%Q.
