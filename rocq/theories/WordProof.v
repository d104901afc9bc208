(** Grids given by functions: pieces of a row, cells by position, updates and merging. *)
From Verif Require Import WordSpec.
From Coq Require Import Lia.
Open Scope nat_scope.

Section Rows.
Variable X : Type.
Variables (L W : nat -> nat) (m : nat).
Notation tc := (tc X).
(** [L q]: where the piece over column q starts, [W q]: how wide it is. *)
Definition seg : Prop := forall q, q < m -> L q <= q < L q + W q /\ L q + W q <= m /\ forall q', L q <= q' < L q + W q -> L q' = L q /\ W q' = W q.
Definition pieces (mk : nat -> tc) (s k : nat) : list tc := flat_map (fun q => if L q =? q then [mk q] else []) (seq s k).
Hypothesis Seg : seg.
Variable mk : nat -> tc.
Hypothesis Span : forall q, q < m -> L q = q -> t_span (mk q) = W q.

Lemma pieces_app s a b : pieces mk s (a + b) = pieces mk s a ++ pieces mk (s + a) b.
Proof. unfold pieces. rewrite seq_app, flat_map_app. reflexivity. Qed.
Lemma pieces_inner s k : (forall q, s <= q < s + k -> L q <> q) -> pieces mk s k = [].
Proof.
  revert s. induction k as [|k IH]; intros s H; [reflexivity|]. unfold pieces. cbn [seq flat_map].
  destruct (L s =? s) eqn:E; [apply Nat.eqb_eq in E; exfalso; apply (H s); [lia|exact E]|]. apply IH. intros q Hq. apply H. lia.
Qed.
Lemma pieces_step s k : s < m -> L s = s -> W s <= k -> pieces mk s k = mk s :: pieces mk (s + W s) (k - W s).
Proof.
  intros Hs Es Hk. destruct (Seg s Hs) as ((_ & Hw) & _ & Hin).
  replace k with (W s + (k - W s)) at 1 by lia. rewrite pieces_app.
  replace (W s) with (1 + (W s - 1)) at 1 by lia. rewrite pieces_app.
  rewrite (pieces_inner (s + 1)).
  - unfold pieces at 1. cbn [seq flat_map]. rewrite Es, Nat.eqb_refl. rewrite app_nil_r. reflexivity.
  - intros q Hq E. destruct (Hin q) as (E1 & _); [lia|]. lia.
Qed.
(** A piece starts where another one ends. *)
Lemma next_start s : s < m -> L s = s -> s + W s < m -> L (s + W s) = s + W s.
Proof.
  intros Hs Es Hn. destruct (Seg (s + W s) Hn) as ((A & B) & _ & Hin). destruct (Nat.eq_dec (L (s + W s)) (s + W s)) as [E|E]; [exact E|exfalso].
  destruct (Seg s Hs) as ((_ & Hw) & _ & His).
  destruct (Nat.le_gt_cases (L (s + W s)) s) as [H|H].
  - destruct (Hin s) as (E1 & E2); [lia|]. lia.
  - destruct (His (L (s + W s))) as (E1 & E2); [lia|].
    destruct (Hin (L (s + W s))) as (E3 & E4); [lia|]. lia.
Qed.
Lemma inner_after s c : s < m -> L s = s -> s < c -> c < m -> L c = c -> s + W s <= c.
Proof.
  intros Hs Es H1 H2 Ec. destruct (Nat.le_gt_cases (s + W s) c) as [H|H]; [exact H|exfalso].
  destruct (Seg s Hs) as (_ & _ & Hin). destruct (Hin c) as (E & _); [lia|]. lia.
Qed.

Lemma split_pieces : forall k s c, s + k <= m -> s <= c < s + k -> L s = s -> L c = c -> s + k = m ->
  split_col (c - s) (pieces mk s k) = Some (pieces mk s (c - s), mk c, pieces mk (c + 1) (s + k - (c + 1))).
Proof.
  induction k as [k IH] using lt_wf_ind. intros s c Hk Hc Es Ec Em.
  destruct (Seg s) as ((_ & Hw) & Hwm & Hin); [lia|].
  assert (Hwk : W s <= k) by lia.
  rewrite (pieces_step s k); [|lia|exact Es|exact Hwk].
  cbn [split_col]. destruct (c - s) as [|d] eqn:Ed.
  - assert (c = s) by lia. subst c. unfold pieces at 2. cbn [seq flat_map].
    replace (s + k - (s + 1)) with ((W s - 1) + (k - W s)) by lia.
    rewrite pieces_app. rewrite (pieces_inner (s + 1)).
    + replace (s + 1 + (W s - 1)) with (s + W s) by lia. reflexivity.
    + intros q Hq E. destruct (Hin q) as (E1 & _); [lia|]. lia.
  - assert (Hcw : s + W s <= c) by (apply inner_after; lia).
    rewrite (Span s); [|lia|exact Es].
    destruct (S d <? W s) eqn:El; [apply Nat.ltb_lt in El; lia|].
    assert (Hnext : L (s + W s) = s + W s) by (apply next_start; lia).
    replace (S d - W s) with (c - (s + W s)) by lia.
    rewrite (IH (k - W s)); [|lia|lia|lia|exact Hnext|exact Ec|lia].
    rewrite <- Ed. rewrite (pieces_step s (c - s)); [|lia|exact Es|lia].
    replace (c - s - W s) with (c - (s + W s)) by lia.
    replace (s + W s + (k - W s) - (c + 1)) with (s + k - (c + 1)) by lia. reflexivity.
Qed.
Lemma start0 : 0 < m -> L 0 = 0.
Proof. intro H. destruct (Seg 0 H) as ((A & _) & _). lia. Qed.
Lemma split_row c : c < m -> L c = c -> split_col c (pieces mk 0 m) = Some (pieces mk 0 c, mk c, pieces mk (c + 1) (m - (c + 1))).
Proof.
  intros Hc Ec. pose proof (split_pieces m 0 c) as H. rewrite Nat.sub_0_r in H. apply H; try lia; try exact Ec. apply start0. lia.
Qed.
Lemma over_pieces : forall k s q, s + k = m -> s <= q < m -> L s = s -> over_col (pieces mk s k) (q - s) = Some (L q - s, mk (L q)).
Proof.
  induction k as [k IH] using lt_wf_ind. intros s q Em Hq Es.
  destruct (Seg s) as ((_ & Hw) & Hwm & Hin); [lia|].
  rewrite (pieces_step s k); [|lia|exact Es|lia]. cbn [over_col]. rewrite (Span s); [|lia|exact Es].
  destruct (q - s <? W s) eqn:El.
  - apply Nat.ltb_lt in El. destruct (Hin q) as (E1 & _); [lia|]. rewrite E1, Es, Nat.sub_diag. reflexivity.
  - apply Nat.ltb_ge in El.
    assert (Hnext : L (s + W s) = s + W s) by (apply next_start; lia).
    replace (q - s - W s) with (q - (s + W s)) by lia. rewrite (IH (k - W s)); [|lia|lia|lia|exact Hnext].
    assert (s + W s <= L q).
    { destruct (Seg q) as ((A & B) & _ & Hin2); [lia|]. destruct (Nat.le_gt_cases (s + W s) (L q)) as [H|H]; [exact H|exfalso].
      destruct (Hin2 (s + W s)) as (E & _); [lia|]. lia. }
    f_equal. f_equal. lia.
Qed.
Lemma over_row q : q < m -> over_col (pieces mk 0 m) q = Some (L q, mk (L q)).
Proof. intro H. pose proof (over_pieces m 0 q) as O. rewrite !Nat.sub_0_r in O. apply O; try lia. apply start0. lia. Qed.
(** Replace the piece starting at c. *)
Lemma upd_pieces c f : c < m -> L c = c -> upd_row c f (pieces mk 0 m) = pieces (fun q => if q =? c then f (mk q) else mk q) 0 m.
Proof.
  intros Hc Ec. unfold upd_row. rewrite split_row by assumption.
  assert (Hext : forall s k, (forall q, s <= q < s + k -> q <> c) -> pieces mk s k = pieces (fun q => if q =? c then f (mk q) else mk q) s k).
  { intros s k H. unfold pieces. revert s H. induction k as [|k IH]; intros s H; [reflexivity|]. cbn [seq flat_map]. rewrite (IH (S s)) by (intros q Hq; apply H; lia).
    destruct (s =? c) eqn:E; [apply Nat.eqb_eq in E; exfalso; apply (H s); lia|]. reflexivity. }
  rewrite (Hext 0 c), (Hext (c + 1) (m - (c + 1))) by lia.
  set (mk' := fun q => if q =? c then f (mk q) else mk q).
  assert (E : pieces mk' 0 m = pieces mk' 0 c ++ pieces mk' c 1 ++ pieces mk' (c + 1) (m - (c + 1))).
  { replace m with (c + (1 + (m - (c + 1)))) at 1 by lia. unfold pieces. rewrite !seq_app, !flat_map_app. reflexivity. }
  rewrite E. f_equal. assert (E1 : pieces mk' c 1 = [f (mk c)]).
  { unfold pieces. cbn [seq flat_map]. rewrite Ec, Nat.eqb_refl. unfold mk'. rewrite Nat.eqb_refl. reflexivity. }
  rewrite E1. reflexivity.
Qed.
Lemma pieces_cells (A : nat -> addr) r : forall k s cells,
  s + k = m -> (k = 0 \/ L s = s) ->
  (forall q, q < m -> L q = q -> t_vm (mk q) <> Continue -> forall q', q' < m -> L q' = q -> A q' = (r, q)) ->
  (forall q, q < m -> t_vm (mk (L q)) = Continue -> forall pre, List.length pre = List.length cells - s + q -> firstn (List.length cells) pre = cells -> back_at m pre = Some (A q)) ->
  s <= List.length cells ->
  row_cells m r s (pieces mk s k) cells = Some (cells ++ map A (seq s k)).
Proof.
  induction k as [k IH] using lt_wf_ind. intros s cells Em Es HA HC Hlen.
  destruct k as [|k']; [cbn; rewrite app_nil_r; reflexivity|]. destruct Es as [Es|Es]; [discriminate|].
  set (k := S k') in *.
  destruct (Seg s) as ((_ & Hw) & Hwm & Hin); [lia|].
  rewrite (pieces_step s k); [|lia|exact Es|lia]. cbn [row_cells]. rewrite (Span s); [|lia|exact Es].
  assert (P : forall n, n <= W s -> forall first, (first = true -> n = W s) -> (first = false -> n < W s) ->
    push_cells m (t_vm (mk s)) (r, s) first n (cells ++ map A (seq s (W s - n))) = Some (cells ++ map A (seq s (W s)))).
  { induction n as [|n IHn]; intros Hn first Hf Hg.
    - cbn [push_cells]. rewrite Nat.sub_0_r. reflexivity.
    - cbn [push_cells].
      assert (E : (match t_vm (mk s) with Continue => back_at m (cells ++ map A (seq s (W s - S n))) | _ => if first then Some (r, s) else back_at 1 (cells ++ map A (seq s (W s - S n))) end) = Some (A (s + (W s - S n)))).
      { destruct (Hin (s + (W s - S n))) as (E1 & _); [lia|]. rewrite Es in E1.
        assert (D : t_vm (mk s) = Continue \/ t_vm (mk s) <> Continue) by (destruct (t_vm (mk s)); auto; right; discriminate).
        destruct D as [D|D].
        - rewrite D. apply HC; [lia|rewrite E1; exact D| |].
          + rewrite app_length, map_length, seq_length. lia.
          + rewrite firstn_app, Nat.sub_diag, firstn_all. cbn. apply app_nil_r.
        - assert (Ea : A (s + (W s - S n)) = (r, s)) by (apply (HA s); try assumption; lia).
          assert (Hb : (if first then Some (r, s) else back_at 1 (cells ++ map A (seq s (W s - S n)))) = Some (A (s + (W s - S n)))).
          { destruct first; [rewrite Ea; reflexivity|]. specialize (Hg eq_refl). unfold back_at.
            rewrite app_length, map_length, seq_length. destruct (_ <? 1) eqn:El; [apply Nat.ltb_lt in El; lia|].
            rewrite nth_error_app2 by lia.
            replace (List.length cells + (W s - S n) - 1 - List.length cells) with (W s - S n - 1) by lia.
            rewrite nth_error_map. rewrite (nth_error_nth' _ 0) by (rewrite seq_length; lia). rewrite seq_nth by lia. cbn [option_map].
            f_equal. rewrite Ea. destruct (Hin (s + (W s - S n - 1))) as (E2 & _); [lia|]. rewrite Es in E2.
            apply (HA s); try assumption; lia. }
          destruct (t_vm (mk s)); [exact Hb|exact Hb|contradiction]. }
      match goal with |- obind ?Y _ = _ => replace Y with (Some (A (s + (W s - S n)))) by (symmetry; exact E) end. cbn [obind].
      replace ((cells ++ map A (seq s (W s - S n))) ++ [A (s + (W s - S n))]) with (cells ++ map A (seq s (W s - n))).
      2:{ replace (W s - n) with ((W s - S n) + 1) by lia. rewrite seq_app, map_app, app_assoc. reflexivity. }
      apply IHn; [lia|discriminate|intros _; lia]. }
  specialize (P (W s) (Nat.le_refl _) true (fun _ => eq_refl)). rewrite Nat.sub_diag in P. cbn [seq map] in P. rewrite app_nil_r in P.
  rewrite P by discriminate. cbn [obind].
  rewrite (IH (k - W s)).
  - rewrite <- app_assoc, <- map_app, <- seq_app. replace (W s + (k - W s)) with k by lia. reflexivity.
  - lia.
  - lia.
  - destruct (Nat.eq_dec (k - W s) 0) as [E|E]; [left; exact E|right; apply next_start; lia].
  - exact HA.
  - intros q Hq Hv pre Hl Hf. apply HC; [exact Hq|exact Hv| |].
    + rewrite Hl, app_length, map_length, seq_length. lia.
    + assert (E : firstn (List.length cells) pre = firstn (List.length cells) (firstn (List.length (cells ++ map A (seq s (W s)))) pre)).
      { rewrite firstn_firstn. f_equal. rewrite app_length. lia. }
      rewrite E, Hf, firstn_app, Nat.sub_diag, firstn_all. cbn. apply app_nil_r.
  - rewrite app_length, map_length, seq_length. lia.
Qed.
End Rows.
