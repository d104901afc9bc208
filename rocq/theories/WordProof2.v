(** Whole grids given by functions. *)
From Verif Require Import WordSpec WordProof.
From Coq Require Import Lia.
Open Scope nat_scope.

Section Grids.
Context {X : Type}.
Notation tc := (tc X).
Definition fgrid (n m : nat) (L : nat -> nat -> nat) (mk : nat -> nat -> tc) : grid X := map (fun p => pieces X (L p) (mk p) 0 m) (seq 0 n).
Definition gok (n m : nat) (L W : nat -> nat -> nat) (mk : nat -> nat -> tc) : Prop :=
  (forall p, p < n -> seg (L p) (W p) m) /\ (forall p q, p < n -> q < m -> L p q = q -> t_span (mk p q) = W p q) /\
  (forall q, 0 < n -> q < m -> t_vm (mk 0 (L 0 q)) <> Continue).
(** The cell object at (p, q). *)
Fixpoint adr (L : nat -> nat -> nat) (mk : nat -> nat -> tc) (p q : nat) : addr :=
  match t_vm (mk p (L p q)) with Continue => match p with O => (0, 0) | S p' => adr L mk p' q end | _ => (p, L p q) end.

Lemma nth_fgrid n m L mk p : p < n -> nth_error (fgrid n m L mk) p = Some (pieces X (L p) (mk p) 0 m).
Proof.
  intro H. unfold fgrid. rewrite nth_error_map. rewrite (nth_error_nth' _ 0) by (rewrite seq_length; lia). rewrite seq_nth by lia. reflexivity.
Qed.
Lemma tc_fgrid n m L W mk p c : gok n m L W mk -> p < n -> c < m -> L p c = c -> tc_at (fgrid n m L mk) p c = Some (mk p c).
Proof.
  intros (Hs & Hw & _) Hp Hc E. unfold tc_at. rewrite nth_fgrid by exact Hp. cbn [obind].
  rewrite (split_row X (L p) (W p) m) by (auto; intros; apply Hw; auto). reflexivity.
Qed.
Lemma over_fgrid n m L W mk p q : gok n m L W mk -> p < n -> q < m -> over (fgrid n m L mk) p q = Some (L p q, mk p (L p q)).
Proof.
  intros (Hs & Hw & _) Hp Hc. unfold over. rewrite nth_fgrid by exact Hp.
  apply (over_row X (L p) (W p) m); auto. 
Qed.
Definition put (r c : nat) (f : tc -> tc) (mk : nat -> nat -> tc) (p q : nat) : tc := if (p =? r) && (q =? c) then f (mk p q) else mk p q.
Lemma upd_seq r c f (row : nat -> list tc) : forall k s, upd_tc r c f (map row (seq s k)) = map (fun p => if p =? s + r then upd_row c f (row p) else row p) (seq s k).
Proof.
  induction r as [|r IH]; intros k s; destruct k as [|k]; try reflexivity; cbn [seq map upd_tc].
  - rewrite Nat.add_0_r, Nat.eqb_refl. f_equal. apply map_ext_in. intros p Hp. apply in_seq in Hp. destruct (p =? s) eqn:E; [apply Nat.eqb_eq in E; lia|reflexivity].
  - destruct (s =? s + S r) eqn:E; [apply Nat.eqb_eq in E; lia|]. f_equal. rewrite IH. apply map_ext. intro p. replace (S s + r) with (s + S r) by lia. reflexivity.
Qed.
Lemma pieces_ext (L1 L2 : nat -> nat) (mk1 mk2 : nat -> tc) s k :
  (forall q, s <= q < s + k -> L1 q = q <-> L2 q = q) -> (forall q, s <= q < s + k -> L1 q = q -> mk1 q = mk2 q) -> pieces X L1 mk1 s k = pieces X L2 mk2 s k.
Proof.
  revert s. induction k as [|k IH]; intros s H1 H2; [reflexivity|]. unfold pieces. cbn [seq flat_map]. f_equal.
  - destruct (L1 s =? s) eqn:E1; destruct (L2 s =? s) eqn:E2; try reflexivity.
    + rewrite H2; [reflexivity|lia|apply Nat.eqb_eq, E1].
    + apply Nat.eqb_eq in E1. apply Nat.eqb_neq in E2. exfalso. apply E2, H1; [lia|exact E1].
    + apply Nat.eqb_eq in E2. apply Nat.eqb_neq in E1. exfalso. apply E1, H1; [lia|exact E2].
  - apply IH; intros q Hq; [apply H1|apply H2]; lia.
Qed.
Lemma fgrid_ext n m L1 L2 mk1 mk2 :
  (forall p q, p < n -> q < m -> L1 p q = q <-> L2 p q = q) -> (forall p q, p < n -> q < m -> L1 p q = q -> mk1 p q = mk2 p q) -> fgrid n m L1 mk1 = fgrid n m L2 mk2.
Proof.
  intros H1 H2. unfold fgrid. apply map_ext_in. intros p Hp. apply in_seq in Hp. apply pieces_ext; intros q Hq; [apply H1|apply H2]; lia.
Qed.
Lemma upd_fgrid n m L W mk r c f : gok n m L W mk -> r < n -> c < m -> L r c = c -> upd_tc r c f (fgrid n m L mk) = fgrid n m L (put r c f mk).
Proof.
  intros (Hs & Hw & _) Hr Hc E. unfold fgrid. rewrite (upd_seq r c f (fun p => pieces X (L p) (mk p) 0 m)). apply map_ext_in. intros p Hp. apply in_seq in Hp. rewrite Nat.add_0_l.
  unfold put. destruct (p =? r) eqn:Ep.
  - apply Nat.eqb_eq in Ep. subst p. rewrite (upd_pieces X (L r) (W r) m); auto.
  - reflexivity.
Qed.
Lemma gok_put n m L W mk r c f : gok n m L W mk -> (forall t, t_span (f t) = t_span t) -> (forall t, t_vm (f t) = t_vm t) -> gok n m L W (put r c f mk).
Proof.
  intros (Hs & Hw & H0) F1 F2. split; [exact Hs|]. split.
  - intros p q Hp Hq E. unfold put. destruct (_ && _); [rewrite F1|]; apply Hw; assumption.
  - intros q Hn Hq. unfold put. destruct (_ && _); [rewrite F2|]; apply H0; assumption.
Qed.
Lemma adr_put L mk r c f p q : (forall t, t_vm (f t) = t_vm t) -> adr L (put r c f mk) p q = adr L mk p q.
Proof.
  intro F. revert q. induction p as [|p IH]; intro q; cbn [adr].
  - unfold put at 1. destruct (_ && _); [rewrite F|]; reflexivity.
  - rewrite IH. unfold put at 1. destruct (_ && _); [rewrite F|]; reflexivity.
Qed.

Definition flat_cells (m : nat) (A : nat -> nat -> addr) (n : nat) : list addr := flat_map (fun p => map (A p) (seq 0 m)) (seq 0 n).
Lemma flat_S m A n : flat_cells m A (S n) = flat_cells m A n ++ map (A n) (seq 0 m).
Proof. unfold flat_cells. rewrite seq_S, flat_map_app. cbn [flat_map]. rewrite app_nil_r. reflexivity. Qed.
Lemma flat_length m A n : List.length (flat_cells m A n) = n * m.
Proof. induction n as [|n IH]; [reflexivity|]. rewrite flat_S, app_length, IH, map_length, seq_length. lia. Qed.
Lemma flat_nth m A n p q : p < n -> q < m -> nth_error (flat_cells m A n) (q + p * m) = Some (A p q).
Proof.
  induction n as [|n IH]; intros Hp Hq; [lia|]. rewrite flat_S.
  destruct (Nat.eq_dec p n) as [->|E].
  - rewrite nth_error_app2 by (rewrite flat_length; lia). rewrite flat_length. replace (q + n * m - n * m) with q by lia.
    rewrite nth_error_map, (nth_error_nth' _ 0) by (rewrite seq_length; lia). rewrite seq_nth by lia. reflexivity.
  - rewrite nth_error_app1; [apply IH; lia|]. rewrite flat_length. nia.
Qed.
Lemma cells_fgrid n m L W mk : gok n m L W mk -> table_cells m 0 (fgrid n m L mk) [] = Some (flat_cells m (adr L mk) n).
Proof.
  intros (Hs & Hw & H0). unfold fgrid.
  assert (G : forall k r, r + k = n -> table_cells m r (map (fun p => pieces X (L p) (mk p) 0 m) (seq r k)) (flat_cells m (adr L mk) r) = Some (flat_cells m (adr L mk) n)).
  { induction k as [|k IH]; intros r Hr; [cbn; f_equal; f_equal; lia|]. cbn [seq map table_cells].
    rewrite (pieces_cells X (L r) (W r) m (Hs r ltac:(lia)) (mk r) (fun q Hq E => Hw r q ltac:(lia) Hq E) (adr L mk r)).
    - cbn [obind]. rewrite <- flat_S. apply IH. lia.
    - reflexivity.
    - destruct m as [|m']; [left; reflexivity|right]. apply (start0 (L r) (W r) (S m')); [apply Hs; lia|lia].
    - intros q Hq E Hv q' Hq' E'. destruct r; cbn [adr]; rewrite E'; destruct (t_vm (mk _ q)); try reflexivity; contradiction.
    - intros q Hq Hv pre Hl Hf. rewrite flat_length in *. destruct r as [|r]; [exfalso; apply (H0 q); [lia|exact Hq|exact Hv]|].
      assert (Hmul : S r * m = r * m + m) by lia.
      unfold back_at. destruct (List.length pre <? m) eqn:El; [apply Nat.ltb_lt in El; lia|].
      cbn [adr]. rewrite Hv. replace (List.length pre - m) with (q + r * m) by lia.
      assert (E : nth_error pre (q + r * m) = nth_error (firstn (S r * m) pre) (q + r * m)).
      { rewrite <- (firstn_skipn (S r * m) pre) at 1. apply nth_error_app1. rewrite firstn_length. lia. }
      rewrite E, Hf. apply flat_nth; lia.
    - lia. }
  apply (G n 0). reflexivity.
Qed.
Lemma cell_fgrid n m L W mk p q : gok n m L W mk -> p < n -> q < m -> table_cell m (fgrid n m L mk) p q = Some (adr L mk p q).
Proof. intros H Hp Hq. unfold table_cell. rewrite (cells_fgrid n m L W mk H). cbn [obind]. apply flat_nth; assumption. Qed.

(* ---------------- merging single cells ---------------- *)
Variable newp : X.
Variable noruns : X -> bool.
Hypothesis New : noruns newp = true.

Definition inreg (i j a b p q : nat) : bool := (i <=? p) && (p <? i + a) && (j <=? q) && (q <? j + b).
Lemma inreg_spec i j a b p q : inreg i j a b p q = true <-> i <= p < i + a /\ j <= q < j + b.
Proof. unfold inreg. rewrite !andb_true_iff, !Nat.leb_le, !Nat.ltb_lt. lia. Qed.
Section Merge.
Variables (n m : nat) (L W : nat -> nat -> nat) (mk : nat -> nat -> tc).
Hypothesis Ok : gok n m L W mk.
Variables (i j a b : nat).
Hypothesis Fit : 1 <= a /\ 1 <= b /\ i + a <= n /\ j + b <= m.
(** The places of the region are single cells without contents. *)
Hypothesis Plain : forall p q, i <= p < i + a -> j <= q < j + b -> L p q = q /\ W p q = 1 /\ t_vm (mk p q) = Single /\ t_body (mk p q) = [newp].
Definition mL (p q : nat) : nat := if inreg i j a b p q then j else L p q.
Definition mW (p q : nat) : nat := if inreg i j a b p q then b else W p q.
Definition mmk (p q : nat) : tc :=
  if inreg i j a b p q then mkTc b (if p =? i then if a =? 1 then Single else Restart else Continue) (t_pr (mk p q)) (t_body (mk p q)) else mk p q.

Lemma piece_out p q q' : p < n -> q < m -> inreg i j a b p q = false -> L p q <= q' < L p q + W p q -> inreg i j a b p q' = false.
Proof.
  intros Hp Hq E H. destruct (inreg i j a b p q') eqn:E'; [exfalso|reflexivity]. apply inreg_spec in E'. destruct E' as (A & B).
  destruct Ok as (Hs & _ & _). destruct (Hs p Hp q Hq) as (C1 & C2 & C3). destruct (C3 q' H) as (D1 & D2).
  destruct (Plain p q' A B) as (P1 & P2 & _). assert (q' = q) by lia. subst q'. rewrite (proj2 (inreg_spec i j a b p q)) in E; [discriminate|lia].
Qed.
Lemma merged_gok : gok n m mL mW mmk.
Proof.
  destruct Ok as (Hs & Hw & H0). split; [|split].
  - intros p Hp q Hq. unfold mL, mW. destruct (inreg i j a b p q) eqn:E.
    + apply inreg_spec in E. split; [lia|]. split; [lia|]. intros q' Hq'.
      assert (E' : inreg i j a b p q' = true) by (apply inreg_spec; lia). rewrite E'. auto.
    + destruct (Hs p Hp q Hq) as (C1 & C2 & C3). split; [exact C1|]. split; [exact C2|]. intros q' Hq'.
      rewrite (piece_out p q q' Hp Hq E Hq'). apply C3, Hq'.
  - intros p q Hp Hq. unfold mL, mW, mmk. destruct (inreg i j a b p q) eqn:E; [intros _; reflexivity|]. apply Hw; assumption.
  - intros q Hn Hq. unfold mL, mmk. destruct (inreg i j a b 0 q) eqn:E.
    + apply inreg_spec in E. assert (E' : inreg i j a b 0 j = true) by (apply inreg_spec; lia). rewrite E'. cbn [t_vm].
      assert (Ei : (0 =? i) = true) by (apply Nat.eqb_eq; lia). rewrite Ei. destruct (a =? 1); discriminate.
    + destruct (inreg i j a b 0 (L 0 q)) eqn:E2; [|apply H0; assumption].
      rewrite (piece_out 0 q (L 0 q) Hn Hq E) in E2; [discriminate|]. destruct (Hs 0 Hn q Hq) as (C1 & _). lia.
Qed.
Lemma plain_empty p q : i <= p < i + a -> j <= q < j + b -> is_empty noruns (t_body (mk p q)) = true.
Proof. intros Hp Hq. destruct (Plain p q Hp Hq) as (_ & _ & _ & ->). exact New. Qed.
(** A row of the region. *)
Lemma swallow_row p self acc k : i <= p < i + a -> 1 <= k <= b -> t_span self = k ->
  swallow newp noruns b self (pieces X (L p) (mk p) (j + k) (m - (j + k))) acc = Some (with_span b self, pieces X (L p) (mk p) (j + b) (m - (j + b)), acc).
Proof.
  intros Hp. revert self k. assert (G : forall d self k, b - k = d -> 1 <= k <= b -> t_span self = k ->
    swallow newp noruns b self (pieces X (L p) (mk p) (j + k) (m - (j + k))) acc = Some (with_span b self, pieces X (L p) (mk p) (j + b) (m - (j + b)), acc)).
  { induction d as [|d IH]; intros self k Hd Hk Es.
    - assert (Ek : k = b) by lia. rewrite Ek in *. assert (Ew : with_span b self = self) by (destruct self; cbn in Es; unfold with_span; cbn; rewrite Es; reflexivity). rewrite Ew.
      destruct (pieces X (L p) (mk p) (j + b) (m - (j + b))); cbn [swallow]; rewrite Es, Nat.leb_refl; reflexivity.
    - assert (Hp2 : p < n) by lia. destruct Ok as (Hs & Hw & _).
      destruct (Plain p (j + k) Hp) as (P1 & P2 & P3 & P4); [lia|].
      rewrite (pieces_step X (L p) (W p) m (Hs p Hp2) (mk p) (j + k)); [|lia|exact P1|lia].
      cbn [swallow]. rewrite Es. destruct (b <=? k) eqn:E; [apply Nat.leb_le in E; lia|].
      rewrite (Hw p (j + k)), P2; [|lia|lia|exact P1]. destruct (b <? k + 1) eqn:E2; [apply Nat.ltb_lt in E2; lia|].
      unfold move. rewrite plain_empty by lia. cbn [snd].
      replace (j + k + 1) with (j + (k + 1)) by lia. replace (m - (j + k) - 1) with (m - (j + (k + 1))) by lia.
      rewrite (IH (with_span (k + 1) self) (k + 1)); [|lia|lia|reflexivity]. reflexivity. }
  intros self k Hk Es. apply (G (b - k)); auto.
Qed.
Lemma row_outside p : p < n -> ~ (i <= p < i + a) -> pieces X (mL p) (mmk p) 0 m = pieces X (L p) (mk p) 0 m.
Proof.
  intros Hp Ho. apply pieces_ext; unfold mL, mmk; intros q Hq; (destruct (inreg i j a b p q) eqn:E; [apply inreg_spec in E; lia|]); [reflexivity|reflexivity].
Qed.
Lemma row_inside p : i <= p < i + a ->
  pieces X (mL p) (mmk p) 0 m = pieces X (L p) (mk p) 0 j ++ mmk p j :: pieces X (L p) (mk p) (j + b) (m - (j + b)).
Proof.
  intro Hp. assert (E : inreg i j a b p j = true) by (apply inreg_spec; lia).
  replace m with (j + (m - j)) at 1 by lia. rewrite pieces_app. rewrite Nat.add_0_l. f_equal.
  - apply pieces_ext; unfold mL, mmk; intros q Hq; (destruct (inreg i j a b p q) eqn:E'; [apply inreg_spec in E'; lia|]); reflexivity.
  - destruct merged_gok as (Ms & _ & _).
    rewrite (pieces_step X (mL p) (mW p) m); [|apply Ms; lia|lia|unfold mL; rewrite E; reflexivity|unfold mW; rewrite E; lia].
    assert (EW : mW p j = b) by (unfold mW; rewrite E; reflexivity). rewrite EW. f_equal. replace (m - j - b) with (m - (j + b)) by lia.
    apply pieces_ext; unfold mL, mmk; intros q Hq; (destruct (inreg i j a b p q) eqn:E'; [apply inreg_spec in E'; lia|]); reflexivity.
Qed.
Lemma region_split p : i <= p < i + a -> split_col j (pieces X (L p) (mk p) 0 m) = Some (pieces X (L p) (mk p) 0 j, mk p j, pieces X (L p) (mk p) (j + 1) (m - (j + 1))).
Proof.
  intro Hp. destruct Ok as (Hs & Hw & _). destruct (Plain p j Hp) as (P1 & _); [lia|].
  apply (split_row X (L p) (W p) m); auto; try lia. apply Hs. lia. intros q Hq E. apply Hw; auto; lia.
Qed.
Lemma plain_span p q : i <= p < i + a -> j <= q < j + b -> t_span (mk p q) = 1.
Proof. intros Hp Hq. destruct Ok as (_ & Hw & _). destruct (Plain p q Hp Hq) as (P1 & P2 & _). rewrite Hw; auto; lia. Qed.
Lemma grow_rows : forall h p acc, i < p -> p + h = i + a -> forall k, p + k = n ->
  grow_below newp noruns j b h (map (fun p => pieces X (L p) (mk p) 0 m) (seq p k)) acc = Some (map (fun p => pieces X (mL p) (mmk p) 0 m) (seq p k), acc).
Proof.
  induction h as [|h IH]; intros p acc Hp Hh k Hk.
  - cbn [grow_below]. f_equal. f_equal. apply map_ext_in. intros p' Hp'. apply in_seq in Hp'. symmetry. apply row_outside; lia.
  - destruct k as [|k]; [lia|]. cbn [seq map grow_below]. rewrite region_split by lia. cbn [obind].
    unfold move. rewrite plain_empty by lia.
    rewrite (swallow_row p _ acc 1); [|lia|lia|]. 2:{ destruct (mk p j) eqn:E. cbn. pose proof (plain_span p j) as H. rewrite E in H. apply H; lia. }
    cbn [obind]. rewrite (IH (S p) acc); [|lia|lia|lia]. cbn [obind].
    rewrite (row_inside p) by lia. f_equal. f_equal. f_equal. f_equal. f_equal.
    unfold mmk. rewrite (proj2 (inreg_spec i j a b p j)) by lia. destruct (p =? i) eqn:E; [apply Nat.eqb_eq in E; lia|]. destruct (mk p j); reflexivity.
Qed.
Lemma grow_region : forall k s, s + k = n -> s <= i ->
  grow newp noruns (i - s) j b a (map (fun p => pieces X (L p) (mk p) 0 m) (seq s k)) = Some (map (fun p => pieces X (mL p) (mmk p) 0 m) (seq s k)).
Proof.
  induction k as [|k IH]; intros s Hk Hs; [lia|]. cbn [seq map grow]. destruct (i - s) as [|d] eqn:Ed.
  - assert (Esi : s = i) by lia. rewrite Esi in *. cbn [grow]. rewrite region_split by lia. cbn [obind].
    rewrite (swallow_row i _ _ 1); [|lia|lia|apply plain_span; lia]. cbn [obind].
    rewrite (grow_rows (a - 1) (S i)); [|lia|lia|lia]. cbn [obind]. rewrite (row_inside i) by lia. f_equal. f_equal. f_equal. f_equal.
    unfold mmk. rewrite (proj2 (inreg_spec i j a b i j)) by lia. rewrite Nat.eqb_refl. destruct (mk i j); reflexivity.
  - cbn [grow]. replace d with (i - S s) by lia. rewrite (IH (S s)) by lia. cbn [option_map]. f_equal. f_equal. symmetry. apply row_outside; lia.
Qed.
Lemma single_box p q : i <= p < i + a -> j <= q < j + b -> tc_box (fgrid n m L mk) (p, q) = Some (p, q, p + 1, q + 1).
Proof.
  intros Hp Hq. unfold tc_box. cbn [fst snd]. destruct (Plain p q Hp Hq) as (P1 & P2 & P3 & P4).
  assert (T : tc_at (fgrid n m L mk) p q = Some (mk p q)) by (apply (tc_fgrid n m L W); auto; lia). rewrite T. cbn [obind].
  assert (T2 : top_of (fgrid n m L mk) p q = Some p) by (destruct p; cbn [top_of]; rewrite T; cbn [obind]; rewrite P3; reflexivity). rewrite T2. cbn [obind].
  assert (T3 : height_of (skipn p (fgrid n m L mk)) q = Some 1).
  { assert (E : nth_error (fgrid n m L mk) p = Some (pieces X (L p) (mk p) 0 m)) by (apply nth_fgrid; lia).
    destruct (nth_error_split _ _ E) as (l1 & l2 & E1 & E2).
    assert (E3 : forall x : list tc, skipn p (l1 ++ x :: l2) = x :: l2) by (intro x; rewrite <- E2, skipn_app, skipn_all, Nat.sub_diag; reflexivity).
    rewrite E1, E3. cbn [height_of].
    destruct Ok as (Hs & Hw & _). rewrite (split_row X (L p) (W p) m); auto; try lia. 2: apply Hs; lia. 2: intros; apply Hw; auto; lia.
    cbn [obind]. rewrite P3. reflexivity. }
  rewrite T3. cbn [obind]. rewrite plain_span by assumption. reflexivity.
Qed.
Lemma merge_region : merge newp noruns (fgrid n m L mk) (i, j) (i + a - 1, j + b - 1) = Some (fgrid n m mL mmk).
Proof.
  unfold merge. rewrite single_box by lia. cbn [obind]. rewrite single_box by lia. cbn [obind].
  replace (i + a - 1 + 1) with (i + a) by lia. replace (j + b - 1 + 1) with (j + b) by lia.
  assert (E : ((i =? i + a - 1) && negb (i + 1 =? i + a) || (j =? j + b - 1) && negb (j + 1 =? j + b)
    || (if i <? i + a - 1 then i + a <? i + 1 else (i + a - 1 <? i) && (i + 1 <? i + a))
    || (if j <? j + b - 1 then j + b <? j + 1 else (j + b - 1 <? j) && (j + 1 <? j + b))) = false).
  { apply not_true_is_false. intro E. rewrite !orb_true_iff, !andb_true_iff, !negb_true_iff, !Nat.eqb_eq, !Nat.eqb_neq in E.
    destruct E as [[[(E1 & E2)|(E1 & E2)]|E]|E]; try lia.
    - destruct (i <? i + a - 1) eqn:F; [apply Nat.ltb_lt in E; lia|]. apply andb_true_iff in E. rewrite !Nat.ltb_lt in E. lia.
    - destruct (j <? j + b - 1) eqn:F; [apply Nat.ltb_lt in E; lia|]. apply andb_true_iff in E. rewrite !Nat.ltb_lt in E. lia. }
  rewrite E. rewrite !Nat.min_l, !Nat.max_r by lia. replace (j + b - j) with b by lia. replace (i + a - i) with a by lia.
  pose proof (grow_region n 0) as G. rewrite Nat.sub_0_r in G. apply G; lia.
Qed.
End Merge.
End Grids.
