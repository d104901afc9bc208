From Verif Require Import FontModel.
From Coq Require Import List Bool NArith Lia.
Import ListNotations.
Open Scope string_scope.

(** Vocabulary: [c] occurs in [s]. *)
Definition occurs (c : ascii) (s : string) : Prop := In c (list_ascii_of_string s).

Lemma existsb_occurs c s : existsb (Ascii.eqb c) (list_ascii_of_string s) = true <-> occurs c s.
Proof.
  rewrite existsb_exists. split.
  - intros (x & Hx & E). apply Ascii.eqb_eq in E. subst. exact Hx.
  - intros H. exists c. split; [exact H|apply Ascii.eqb_refl].
Qed.
Lemma after_last_none c s : ~ occurs c s -> after_last c s = s.
Proof.
  destruct s as [|x t]; [reflexivity|]. intros H. cbn [after_last].
  destruct (existsb (Ascii.eqb c) (list_ascii_of_string t)) eqn:E.
  - apply existsb_occurs in E. destruct H. right. exact E.
  - destruct (Ascii.eqb x c) eqn:F; [|reflexivity]. apply Ascii.eqb_eq in F. destruct H. left. exact F.
Qed.
Lemma after_last_clean c s : ~ occurs c (after_last c s).
Proof.
  induction s as [|x t IH]; [intros []|]. cbn [after_last].
  destruct (existsb (Ascii.eqb c) (list_ascii_of_string t)) eqn:E; [exact IH|].
  assert (N : ~ occurs c t) by (rewrite <- existsb_occurs, E; discriminate).
  destruct (Ascii.eqb x c) eqn:F; [exact N|]. intros [H|H]; [|exact (N H)]. subst. rewrite Ascii.eqb_refl in F. discriminate.
Qed.
Lemma after_last_app c p s : ~ occurs c s -> after_last c (p ++ String c s) = s.
Proof.
  intros H. induction p as [|x p IH]; cbn [append].
  - cbn [after_last]. destruct (existsb _ _) eqn:E; [apply existsb_occurs in E; contradiction|]. rewrite Ascii.eqb_refl. reflexivity.
  - cbn [after_last]. assert (E : existsb (Ascii.eqb c) (list_ascii_of_string (p ++ String c s)) = true).
    { apply existsb_occurs. unfold occurs. clear IH. induction p as [|y p IH]; cbn; [left; reflexivity|right; exact IH]. }
    rewrite E. exact IH.
Qed.
Lemma before_first_none c s : ~ occurs c s -> before_first c s = s.
Proof.
  induction s as [|x t IH]; [reflexivity|]. intros H. cbn [before_first].
  destruct (Ascii.eqb x c) eqn:F; [apply Ascii.eqb_eq in F; destruct H; left; exact F|]. f_equal. apply IH. intros G. apply H. right. exact G.
Qed.
Lemma before_first_clean c s : ~ occurs c (before_first c s).
Proof.
  induction s as [|x t IH]; [intros []|]. cbn [before_first]. destruct (Ascii.eqb x c) eqn:F; [intros []|].
  intros [H|H]; [subst; rewrite Ascii.eqb_refl in F; discriminate|exact (IH H)].
Qed.
Lemma before_first_sub c d s : occurs d (before_first c s) -> occurs d s.
Proof.
  induction s as [|x t IH]; [intros []|]. cbn [before_first]. destruct (Ascii.eqb x c); [intros []|].
  intros [H|H]; [left; exact H|right; exact (IH H)].
Qed.
Lemma before_first_app c s t : ~ occurs c s -> before_first c (s ++ String c t) = s.
Proof.
  induction s as [|x s IH]; intros H; cbn [append before_first].
  - rewrite Ascii.eqb_refl. reflexivity.
  - destruct (Ascii.eqb x c) eqn:F; [apply Ascii.eqb_eq in F; destruct H; left; exact F|]. f_equal. apply IH. intros G. apply H. right. exact G.
Qed.
Lemma replace_none c d s : ~ occurs c s -> replace_char c d s = s.
Proof.
  induction s as [|x t IH]; [reflexivity|]. intros H. cbn [replace_char].
  destruct (Ascii.eqb x c) eqn:F; [apply Ascii.eqb_eq in F; destruct H; left; exact F|]. f_equal. apply IH. intros G. apply H. right. exact G.
Qed.
Lemma replace_clean c d s : c <> d -> ~ occurs c (replace_char c d s).
Proof.
  intros N. induction s as [|x t IH]; [intros []|]. cbn [replace_char]. intros [H|H]; [|exact (IH H)].
  destruct (Ascii.eqb x c) eqn:F; [congruence|]. subst. rewrite Ascii.eqb_refl in F. discriminate.
Qed.
Lemma replace_keeps c d e s : e <> d -> occurs e (replace_char c d s) -> occurs e s.
Proof.
  intros N. induction s as [|x t IH]; [intros []|]. cbn [replace_char]. intros [H|H]; [|right; exact (IH H)].
  destruct (Ascii.eqb x c); [congruence|left; exact H].
Qed.

Lemma assoc_in {A} k (l : list (string * A)) v : assoc k l = Some v -> In (k, v) l.
Proof.
  induction l as [|[k' v'] l IH]; [discriminate|]. cbn [assoc]. destruct (String.eqb k k') eqn:E.
  - apply String.eqb_eq in E. intros H. inversion H. subst. left. reflexivity.
  - intros H. right. exact (IH H).
Qed.
Definition occursb (c : ascii) (s : string) : bool := existsb (Ascii.eqb c) (list_ascii_of_string s).
Lemma dict_values_fixed : forallb (fun kv => String.eqb (parse_font (snd kv)) (snd kv)
    && negb (occursb "+" (snd kv)) && negb (occursb "-" (snd kv)) && negb (occursb "," (snd kv))) DICT_FONTS = true.
Proof. vm_compute. reflexivity. Qed.
Lemma dict_value k v : assoc k DICT_FONTS = Some v -> parse_font v = v /\ ~ occurs "+" v /\ ~ occurs "-" v /\ ~ occurs "," v.
Proof.
  intros H. apply assoc_in in H. pose proof dict_values_fixed as F. rewrite forallb_forall in F. specialize (F _ H). cbn [snd] in F.
  apply andb_prop in F. destruct F as [F F4]. apply andb_prop in F. destruct F as [F F3]. apply andb_prop in F. destruct F as [F1 F2].
  apply String.eqb_eq in F1. apply negb_true_iff in F2, F3, F4. unfold occursb in *.
  split; [exact F1|]. rewrite <- !existsb_occurs, F2, F3, F4. repeat split; discriminate.
Qed.
(** Core of the name: between the last [+] and the first [-] after it. *)
Definition core (s : string) : string := before_first "-" (after_last "+" s).
Lemma core_clean s : ~ occurs "+" (core s) /\ ~ occurs "-" (core s).
Proof.
  split; [|apply before_first_clean]. intros H. apply before_first_sub in H. exact (after_last_clean _ _ H).
Qed.
Lemma core_fixed s : ~ occurs "+" s -> ~ occurs "-" s -> core s = s.
Proof. intros H1 H2. unfold core. rewrite after_last_none by exact H1. apply before_first_none, H2. Qed.
Lemma parse_core s : parse_font s = match assoc (font_key (core s)) DICT_FONTS with Some v => v | None => replace_char "," " " (core s) end.
Proof.
  unfold parse_font. fold (core s). cbv zeta. destruct (assoc _ _) as [v|] eqn:E; [|reflexivity].
  apply dict_value in E. apply replace_none. apply E.
Qed.
Lemma parse_charset s : ~ occurs "+" (parse_font s) /\ ~ occurs "-" (parse_font s) /\ ~ occurs "," (parse_font s).
Proof.
  rewrite parse_core. destruct (assoc _ _) as [v|] eqn:E; [apply dict_value in E; tauto|].
  destruct (core_clean s) as [C1 C2]. repeat split.
  - intros H. apply replace_keeps in H; [exact (C1 H)|discriminate].
  - intros H. apply replace_keeps in H; [exact (C2 H)|discriminate].
  - apply replace_clean. discriminate.
Qed.
Lemma core_sub c s : occurs c (core s) -> occurs c s.
Proof.
  intros H. unfold core in H. apply before_first_sub in H. revert H. induction s as [|x t IH]; [auto|].
  cbn [after_last]. destruct (existsb _ _); [intros H; right; exact (IH H)|]. destruct (Ascii.eqb x "+"); [intros H; right; exact H|auto].
Qed.
Lemma parse_idempotent s : ~ occurs "," s -> parse_font (parse_font s) = parse_font s.
Proof.
  intros H. rewrite (parse_core s). destruct (assoc (font_key (core s)) DICT_FONTS) as [v|] eqn:E; [apply (dict_value _ _ E)|].
  assert (N : ~ occurs "," (core s)) by (intros G; apply H, core_sub, G).
  rewrite replace_none by exact N. rewrite parse_core.
  destruct (core_clean s) as [C1 C2]. rewrite (core_fixed (core s) C1 C2), E. apply replace_none, N.
Qed.
Lemma parse_parse_idempotent s : parse_font (parse_font (parse_font s)) = parse_font (parse_font s).
Proof. apply parse_idempotent. apply (parse_charset s). Qed.
Lemma app_occurs c s t : occurs c (s ++ t) <-> occurs c s \/ occurs c t.
Proof.
  unfold occurs. induction s as [|x s IH]; cbn; [tauto|]. rewrite IH. tauto.
Qed.
Lemma parse_subset pre name style : ~ occurs "+" name -> ~ occurs "-" name -> ~ occurs "+" style ->
  core (pre ++ String "+" (name ++ String "-" style)) = name.
Proof.
  intros H1 H2 H3. unfold core. rewrite after_last_app; [apply before_first_app, H2|].
  rewrite app_occurs. intros [G|G]; [exact (H1 G)|]. destruct G as [G|G]; [discriminate|exact (H3 G)].
Qed.
