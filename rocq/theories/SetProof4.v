(** The lines of a table across the page. *)
From Verif Require TableSpec.
From Verif Require Import TabSpec SetSpec.
From Verif Require Import GridSpec.
From Coq Require Import Lia Lqa.
Notation length := List.length.
Open Scope Q_scope.

Lemma over_col_same {X} (row : list (WordModel.tc X)) : forall a s c q, WordSpec.over_col row a = Some (s, c) -> (s <= q < s + WordModel.t_span c)%nat -> WordSpec.over_col row q = Some (s, c).
Proof.
  induction row as [|t row IH]; intros a s c q E H; cbn [WordSpec.over_col] in E |- *; [discriminate E|].
  destruct (Nat.ltb_spec a (WordModel.t_span t)) as [L|L].
  - injection E as <- <-. replace (q <? WordModel.t_span t)%nat with true by (symmetry; apply Nat.ltb_lt; lia). reflexivity.
  - destruct (WordSpec.over_col row (a - WordModel.t_span t)) as [[s0 c0]|] eqn:E0; [|discriminate E]. injection E as <- <-.
    replace (q <? WordModel.t_span t)%nat with false by (symmetry; apply Nat.ltb_ge; lia). rewrite (IH _ _ _ (q - WordModel.t_span t)%nat E0) by lia. reflexivity.
Qed.
Lemma over_same {X} (t : list (list (WordModel.tc X))) p a s c q : WordSpec.over t p a = Some (s, c) -> (s <= q < s + WordModel.t_span c)%nat -> WordSpec.over t p q = Some (s, c).
Proof. unfold WordSpec.over. destruct (nth_error t p) as [row|]; [apply over_col_same|discriminate]. Qed.
Lemma width_span {X} (t : list (list (WordModel.tc X))) p j c w : WordSpec.over t p j = Some (j, c) -> WordModel.pr_width (WordModel.t_pr c) = Some w ->
  forall k, (k < WordModel.t_span c)%nat -> width_before t p (j + S k) == width_before t p j + w.
Proof.
  intros Ov Wi. induction k as [|k IH]; intros Hk.
  - rewrite Nat.add_1_r. cbn [width_before]. rewrite Ov, Nat.eqb_refl, Wi. reflexivity.
  - rewrite <- plus_n_Sm. cbn [width_before]. rewrite (over_same t p j j c (j + S k) Ov) by lia. replace (Nat.eqb j (j + S k)) with false by (symmetry; apply Nat.eqb_neq; lia). rewrite IH by lia. ring.
Qed.
Theorem lines_across g r strokes cells t left ind : TableSpec.partition (g_rows g) (g_cols g) r -> table_shown g r strokes cells t -> left + ind / 20 == round1 (gx g 0) -> set_across_page g r left ind t.
Proof.
  intros P (_ & Sh) L0 p j Hp. induction j as [j IH] using lt_wf_ind. intros Hj Top Bd.
  destruct j as [|j]; [cbn [width_before]; rewrite L0; ring|].
  destruct (P p j Hp ltac:(lia)) as (In_ & Same). destruct (r p j) as [[[i0 j0] m] n] eqn:Er. cbn [TableSpec.in_region] in In_, Same. pose proof (Top j (Nat.lt_succ_diag_r j)) as Ti. rewrite Er in Ti. cbn [TableSpec.reg_top] in Ti. subst i0.
  assert (En : (j0 + n = S j)%nat).
  { destruct (Nat.eq_dec (S j) (g_cols g)) as [El|El].
    - destruct (Nat.eq_dec (j0 + n) (S j)) as [E|N]; [exact E|]. destruct (Same p (S j)) as (_ & X & _); lia.
    - destruct (Nat.eq_dec (j0 + n) (S j)) as [E|N]; [exact E|]. destruct (Same p (S j)) as (_ & X & Y); [lia|]. specialize (Bd X). rewrite Y in Bd. cbn [TableSpec.reg_left] in Bd. lia. }
  destruct (Sh p j p j0 m n Hp ltac:(lia) Er) as (_ & c & Ov & Sp & Wi & _).
  assert (I0 : left + ind / 20 + width_before t p j0 == round1 (gx g j0)).
  { apply IH; [lia|lia|intros q Hq; apply Top; lia|]. intros H. destruct (Same p j0) as (_ & _ & Y); [lia|]. rewrite Y. reflexivity. }
  replace (S j) with (j0 + S (n - 1))%nat by lia. rewrite (width_span t p j0 c _ Ov Wi) by (rewrite Sp; lia). replace (j0 + S (n - 1))%nat with (j0 + n)%nat by lia.
  unfold place. cbn [rround rx0 rx1]. rewrite <- I0. ring.
Qed.
