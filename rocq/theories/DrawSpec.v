(** What a reader of the Word file finds: pictures by relation and part, links by relation. *)
From Verif Require Export DrawModel.
From Coq Require Export QArith Qabs.
Open Scope nat_scope.

(** The relation of the picture leads to a part with these bytes. *)
Definition shows (pk : package) (d : drawing) (b : bytes) : Prop :=
  exists k, In (dr_rel d, T_part k) (pk_rels pk) /\ In (k, b) (pk_parts pk).
Definition leads (pk : package) (r : nat) (u : list Z) : Prop := In (r, T_url u) (pk_rels pk).
(** Nothing in the package is ambiguous or dangling, and no picture is stored twice. *)
Record sound (pk : package) : Prop := {
  so_rels : NoDup (map fst (pk_rels pk));
  so_parts : NoDup (map fst (pk_parts pk));
  so_once : NoDup (map snd (pk_parts pk));
  so_target : forall n k, In (n, T_part k) (pk_rels pk) -> exists b, In (k, b) (pk_parts pk);
  so_ids : NoDup (map dr_id (pk_drawings pk));
  so_positive : forall d, In d (pk_drawings pk) -> 1 <= dr_id d;
  so_drawings : forall d, In d (pk_drawings pk) -> exists b, shows pk d b;
  so_links : forall r, In r (pk_links pk) -> exists u, leads pk r u }.
(** The document python-docx starts with: relations to its own parts only. *)
Definition blank (pk : package) : Prop :=
  NoDup (map fst (pk_rels pk)) /\ (forall n t, In (n, t) (pk_rels pk) -> exists m, t = T_other m) /\
  pk_parts pk = [] /\ pk_drawings pk = [] /\ pk_links pk = [].
(** Pictures that were written, and links, in order. *)
Definition written_picture (eo : write * outcome) : list bytes :=
  match eo with (Inline b _, Done) => [b] | (Floating b _ _ _, Done) => [b] | _ => [] end.
Definition link_of (e : write) : list (list Z) := match e with Link u => [u] | _ => [] end.
Definition bytes_of (e : write) : list bytes := match e with Inline b _ => [b] | Floating b _ _ _ => [b] | Link _ => [] end.
