(** Model of the temporary json files used by multi-processing:
    converter.py:278-342 (with serialize/deserialize, converter.py:140-150). *)
From Coq Require Import String DecimalString.
From Verif Require Import PyBase ConverterModel.
Open Scope Z_scope.

(** converter.py:292-293 and 301: [f'{prefix}-{i}.json'] with prefix 'pages'. *)
Definition tmp_name (i : nat) : string :=
  ("pages-" ++ NilEmpty.string_of_uint (Nat.to_uint i) ++ ".json")%string.

Section Mp.
Variable C : Type.

(** A file in the working directory: something unrelated/left over, a file
    just opened for writing, or the json of a list of pages. *)
Inductive tfile := TOther (n : N) | TPartial | TPages (d : list (Z * C)).
Definition tdir := string -> option tfile.
Definition tset (f : tdir) (p : string) (v : option tfile) : tdir :=
  fun q => if String.eqb q p then v else f q.

(** Progress of the workers: 0 = parsing, 1 = json file opened with 'w'
    (truncated, line 142), 2 = data written, file closed. *)
Record mpstate := mkMp { mp_dir : tdir; mp_pc : nat -> nat }.

(** One visible step of worker [w]; [data w] is the result of its parsing,
    which only uses its own process memory (lines 324-341). *)
Definition wstep (data : nat -> list (Z * C)) (s : mpstate) (w : nat) : mpstate :=
  match mp_pc s w with
  | O => mkMp (tset (mp_dir s) (tmp_name w) (Some TPartial))
              (fun v => if Nat.eqb v w then 1%nat else mp_pc s v)
  | S O => mkMp (tset (mp_dir s) (tmp_name w) (Some (TPages (data w))))
                (fun v => if Nat.eqb v w then 2%nat else mp_pc s v)
  | _ => s
  end.
(** [pool.map] (line 297): the workers run in some interleaving [sched]. *)
Definition run_workers (data : nat -> list (Z * C)) (dir : tdir) (sched : list nat) : mpstate :=
  fold_left (wstep data) sched (mkMp dir (fun _ => O)).

(** converter.py:299-304: the main process restores and removes the files of workers
    [i, i+1, ...] ([k] of them).  [rt] is the json round trip of a page
    content.  The boolean is [false] if reading raised an exception. *)
Fixpoint collect (rt : C -> C) (k i : nat) (dir : tdir) (st : list (page C)) : list (page C) * tdir * bool :=
  match k with
  | O => (st, dir, true)
  | S k' =>
      match dir (tmp_name i) with
      | None => collect rt k' (S i) dir st                              (* line 302 *)
      | Some (TPages d) =>
          let '(st', ok) := restore (map (fun e => mkStored (Some (fst e)) (rt (snd e)) true) d) st in
          if ok then collect rt k' (S i) (tset dir (tmp_name i) None) st'   (* lines 303-304 *)
          else (st', dir, false)
      | Some _ => (st, dir, false)                                      (* json error *)
      end
  end.
End Mp.
Arguments TOther {C}. Arguments TPartial {C}. Arguments TPages {C}.
Arguments tset {C}. Arguments mkMp {C}. Arguments mp_dir {C}. Arguments mp_pc {C}.
Arguments wstep {C}. Arguments run_workers {C}. Arguments collect {C}.
