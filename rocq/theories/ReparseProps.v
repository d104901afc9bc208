(** C42: parsing a page again. *)
From Verif Require Import ReparseModel.
From Coq Require Import Lia.

(** What of a page gets into the document besides the floating images. *)
Definition content {Layout Margin Links Float} (p : @page Layout Margin Links Float) : Layout * Margin := (p_layout p, p_margin p).
Fixpoint times {A} (n : nat) (l : list A) : list A := match n with O => [] | S k => l ++ times k l end.

(** Parsing does not depend on what an earlier parsing left in the layout: only on the
    hyperlinks remembered, and floating images are appended. *)
Theorem C42_only_links_remembered : forall Cfg Layout Margin Links Float zero (P : pipeline Cfg Layout Margin Links Float) s p q, p_links p = p_links q ->
  let a := parse zero P s p in let b := parse zero P s q in
  fst a = fst b /\ (fst a = true -> content (snd a) = content (snd b) /\ p_links (snd a) = p_links (snd b) /\ p_finalized (snd a) = true /\ p_finalized (snd b) = true) /\
  exists fl, p_floats (snd a) = p_floats p ++ fl /\ p_floats (snd b) = p_floats q ++ fl.
Proof.
  intros until q. intros E. cbv zeta. unfold parse. rewrite E. destruct (load P s) as [l0|].
  2: { cbn. split; [reflexivity|]. split; [discriminate|]. exists []. rewrite !app_nil_r. split; reflexivity. }
  destruct (clean P s l0) as [[ok1 l1] fl]. destruct ok1; cbn [negb].
  2: { cbn. split; [reflexivity|]. split; [discriminate|]. exists fl. split; reflexivity. }
  destruct (tables P s (margin_of P s l1) l1) as [ok2 l2]. destruct ok2; cbn [negb].
  2: { cbn. split; [reflexivity|]. split; [discriminate|]. exists fl. split; reflexivity. }
  destruct (finish P s _ _ l2) as [ok3 l3]. destruct ok3; cbn [negb].
  - cbn. split; [reflexivity|]. split; [intros _; repeat split; reflexivity|]. exists fl. split; reflexivity.
  - cbn. split; [reflexivity|]. split; [discriminate|]. exists fl. split; reflexivity.
Qed.
Print Assumptions C42_only_links_remembered.

Lemma parse_ok {Cfg Layout Margin Links Float} zero (P : pipeline Cfg Layout Margin Links Float) s p q : parse zero P s p = (true, q) ->
  exists l0 l1 fl l2 l3, load P s = Some l0 /\ clean P s l0 = (true, l1, fl) /\ tables P s (margin_of P s l1) l1 = (true, l2) /\
    finish P s (margin_of P s l1) (match p_links p with Some k => k | None => links_of P l2 end) l2 = (true, l3) /\
    q = mkPage l3 (margin_of P s l1) (p_floats p ++ fl) (Some (match p_links p with Some k => k | None => links_of P l2 end)) true.
Proof.
  unfold parse. destruct (load P s) as [l0|]; [|discriminate]. destruct (clean P s l0) as [[ok1 l1] fl] eqn:E1. destruct ok1; cbn [negb]; [|discriminate].
  destruct (tables P s (margin_of P s l1) l1) as [ok2 l2] eqn:E2. destruct ok2; cbn [negb]; [|discriminate].
  destruct (finish P s _ _ l2) as [ok3 l3] eqn:E3. destruct ok3; cbn [negb]; [|discriminate]. intros H. injection H as <-.
  exists l0, l1, fl, l2, l3. repeat split; assumption.
Qed.

(** C42: once a page was parsed, parsing it again with the same settings, as often as one
    likes, succeeds and leaves the same layout and margins; the floating images of the page
    are then there once per parsing. *)
Theorem C42_reparse_same : forall Cfg Layout Margin Links Float zero empty (P : pipeline Cfg Layout Margin Links Float) s q n,
  parse zero P s (new_page zero empty) = (true, q) ->
  let r := history zero P (repeat s n) q in
  content r = content q /\ p_links r = p_links q /\ p_finalized r = true /\ p_floats r = times (S n) (p_floats q).
Proof.
  intros until n. intros H. cbv zeta. destruct (parse_ok _ _ _ _ _ H) as (l0 & l1 & fl & l2 & l3 & H0 & H1 & H2 & H3 & ->). cbn [p_links new_page p_floats app] in *.
  assert (G : forall k pre, history zero P (repeat s k) (mkPage l3 (margin_of P s l1) pre (Some (links_of P l2)) true) =
    mkPage l3 (margin_of P s l1) (pre ++ times k fl) (Some (links_of P l2)) true).
  { induction k as [|k IH]; intros pre; cbn [repeat history times]; [rewrite app_nil_r; reflexivity|].
    unfold parse at 1. rewrite H0, H1, H2. cbn [negb p_links p_floats]. rewrite H3. cbn [negb snd]. rewrite IH, app_assoc. reflexivity. }
  rewrite G. cbn. repeat split; reflexivity.
Qed.
Print Assumptions C42_reparse_same.
(** C42: a page without floating images is therefore exactly as after the first parsing. *)
Theorem C42_reparse_identical : forall Cfg Layout Margin Links Float zero empty (P : pipeline Cfg Layout Margin Links Float) s q n,
  parse zero P s (new_page zero empty) = (true, q) -> p_floats q = [] -> history zero P (repeat s n) q = q.
Proof.
  intros until n. intros H F. destruct (C42_reparse_same _ _ _ _ _ zero empty P s q n H) as (C & L & Fi & Fl).
  rewrite F in Fl. assert (Z : times (S n) (@nil Float) = []) by (clear; induction n as [|n IH]; [reflexivity|exact IH]). rewrite Z in Fl.
  destruct (parse_ok _ _ _ _ _ H) as (l0 & l1 & fl & l2 & l3 & _ & _ & _ & _ & E). assert (Fq : p_finalized q = true) by (rewrite E; reflexivity).
  destruct (history zero P (repeat s n) q), q. unfold content in C. cbn in *. injection C as -> ->. subst. reflexivity.
Qed.
Print Assumptions C42_reparse_identical.
(** C42 (finding): a page with a floating image has it twice after a second parsing, so a
    second [convert] of the same Converter puts it twice into the document. *)
Theorem C42_floats_accumulate_refuted : forall Cfg Layout Margin Links Float zero empty (P : pipeline Cfg Layout Margin Links Float) s q f,
  parse zero P s (new_page zero empty) = (true, q) -> p_floats q = [f] ->
  p_floats (snd (parse zero P s q)) = [f; f].
Proof. intros until f. intros H F. destruct (C42_reparse_same _ _ _ _ _ zero empty P s q 1 H) as (_ & _ & _ & E). cbn [repeat history] in E. rewrite E, F. reflexivity. Qed.
Print Assumptions C42_floats_accumulate_refuted.

(** C42: with other settings in between: if the last parsing succeeds, layout and margins are
    those of a fresh page with the last settings, provided the hyperlinks found with the first
    settings that reached the text formatting are those that the last settings give. *)
Theorem C42_last_settings : forall Cfg Layout Margin Links Float zero empty (P : pipeline Cfg Layout Margin Links Float) ss s q r,
  parse zero P s (history zero P ss (new_page zero empty)) = (true, q) -> parse zero P s (new_page zero empty) = (true, r) ->
  (forall k, p_links (history zero P ss (new_page zero empty)) = Some k -> p_links r = Some k) ->
  content q = content r /\ p_links q = p_links r /\ p_finalized q = p_finalized r.
Proof.
  intros until r. set (p := history zero P ss (new_page zero empty)). clearbody p. intros Hq Hr Hk.
  destruct (parse_ok _ _ _ _ _ Hq) as (l0 & l1 & fl & l2 & l3 & H0 & H1 & H2 & H3 & ->).
  destruct (parse_ok _ _ _ _ _ Hr) as (m0 & m1 & gl & m2 & m3 & G0 & G1 & G2 & G3 & ->). cbn [p_links new_page] in *.
  rewrite H0 in G0. injection G0 as <-. rewrite H1 in G1. injection G1 as <- <-. rewrite H2 in G2. injection G2 as <-.
  assert (E : match p_links p with Some k => k | None => links_of P l2 end = links_of P l2).
  { destruct (p_links p) as [k|]; [|reflexivity]. specialize (Hk k eq_refl). injection Hk as Hk. symmetry. exact Hk. }
  rewrite E in *. rewrite H3 in G3. injection G3 as <-. repeat split; reflexivity.
Qed.
Print Assumptions C42_last_settings.
(** C42: hyperlinks are remembered for ever: every later parsing keeps them. *)
Theorem C42_links_kept : forall Cfg Layout Margin Links Float zero (P : pipeline Cfg Layout Margin Links Float) ss p k,
  p_links p = Some k -> p_links (history zero P ss p) = Some k.
Proof.
  intros until k. revert p. induction ss as [|s ss IH]; intros p H; [exact H|]. cbn [history]. apply IH. unfold parse.
  destruct (load P s) as [l0|]; [|exact H]. destruct (clean P s l0) as [[ok1 l1] fl]. destruct ok1; cbn [negb]; [|exact H].
  destruct (tables P s (margin_of P s l1) l1) as [ok2 l2]. destruct ok2; cbn [negb]; [|exact H]. rewrite H.
  destruct (finish P s _ k l2) as [ok3 l3]. destruct ok3; reflexivity.
Qed.
Print Assumptions C42_links_kept.
(** C42 (finding): so new settings that change which links there are have no effect on the
    links: the second parsing is not that of a fresh page. *)
Theorem C42_stale_links_refuted : exists (P : pipeline nat (list nat) unit (list nat) unit) s s' q q' r,
  parse tt P s (new_page tt []) = (true, q) /\ parse tt P s' q = (true, q') /\ parse tt P s' (new_page tt []) = (true, r) /\ content q' <> content r.
Proof.
  exists (mkPipe (fun _ => Some [1; 5]) (fun s l => (true, filter (Nat.leb s) l, [])) (fun _ _ => tt) (fun _ _ l => (true, l)) (fun l => l) (fun _ _ k l => (true, k))).
  exists 0, 3. do 3 eexists. repeat split; try (vm_compute; reflexivity). vm_compute. discriminate.
Qed.
Print Assumptions C42_stale_links_refuted.
(** C42: whether a page counts as parsed is decided by its last parsing that got the source
    contents: it is finalized exactly if that came to its end. *)
Theorem C42_finalized : forall Cfg Layout Margin Links Float zero (P : pipeline Cfg Layout Margin Links Float) s p,
  load P s <> None -> p_finalized (snd (parse zero P s p)) = fst (parse zero P s p).
Proof.
  intros until p. intros H. unfold parse. destruct (load P s) as [l0|]; [|congruence]. destruct (clean P s l0) as [[ok1 l1] fl]. destruct ok1; cbn [negb]; [|reflexivity].
  destruct (tables P s (margin_of P s l1) l1) as [ok2 l2]. destruct ok2; cbn [negb]; [|reflexivity].
  destruct (finish P s _ _ l2) as [ok3 l3]. destruct ok3; reflexivity.
Qed.
Print Assumptions C42_finalized.
(** C42 (finding): if the source contents cannot be extracted, a page parsed before stays
    finalized with its old contents, although this parsing failed. *)
Theorem C42_stale_page_refuted : forall Cfg Layout Margin Links Float zero (P : pipeline Cfg Layout Margin Links Float) s p,
  load P s = None -> parse zero P s p = (false, p).
Proof. intros until p. intros H. unfold parse. rewrite H. reflexivity. Qed.
Print Assumptions C42_stale_page_refuted.
(** C42: after a parsing that failed half-way, a successful one repairs the page: layout and
    margins are those of a fresh page (with the same links). *)
Theorem C42_repair : forall Cfg Layout Margin Links Float zero empty (P : pipeline Cfg Layout Margin Links Float) ss s q r,
  Forall (fun x => forall p, p_links (snd (parse zero P x p)) = p_links p) ss ->
  parse zero P s (history zero P ss (new_page zero empty)) = (true, q) -> parse zero P s (new_page zero empty) = (true, r) -> content q = content r.
Proof.
  intros until r. intros H Hq Hr. refine (proj1 (C42_last_settings _ _ _ _ _ zero empty P ss s q r Hq Hr _)).
  intros k Hk. exfalso. assert (E : forall p, p_links p = None -> p_links (history zero P ss p) = None).
  { clear - H. induction ss as [|x ss IH]; intros p Hp; [exact Hp|]. inversion H as [|? ? H1 H2]. subst. cbn [history]. apply IH; [exact H2|]. rewrite H1. exact Hp. }
  rewrite E in Hk by reflexivity. discriminate Hk.
Qed.
Print Assumptions C42_repair.
(** A page with a link, a floating image, and settings (the number) below which parsing
    fails half-way: hypotheses met. *)
Definition ex_pipe : pipeline nat (list nat) nat (list nat) nat :=
  mkPipe (fun s => if Nat.eqb s 9 then None else Some [4; 8; 15]) (fun s l => (Nat.leb 1 s, filter (fun x => negb (Nat.eqb x 8)) l, filter (Nat.eqb 8) l))
    (fun s l => s + List.length l) (fun s m l => (Nat.leb 2 s, m :: l)) (filter (Nat.leb 10)) (fun s m k l => (Nat.leb 3 s, k ++ l)).
Example C42_nonvacuous : let q := mkPage [15; 5; 4; 15] 5 [8] (Some [15]) true in
  parse 0 ex_pipe 3 (new_page 0 []) = (true, q) /\ history 0 ex_pipe [3; 3] q = mkPage [15; 5; 4; 15] 5 [8; 8; 8] (Some [15]) true /\
  history 0 ex_pipe [9] q = q /\ p_finalized (history 0 ex_pipe [1] q) = false /\ content (history 0 ex_pipe [0; 1; 3] (new_page 0 [])) = content q /\
  Forall (fun x => forall p, p_links (snd (parse 0 ex_pipe x p)) = p_links p) [0; 1].
Proof. cbn. repeat split; try reflexivity. repeat constructor. Qed.
