(** Writing the cells one by one: the grid after each cell. *)
From Verif Require Import WordSpec WordProof WordProof2.
From Coq Require Import Lia Arith.
Open Scope nat_scope.

Section Write.
Context {X : Type}.
Variable newp : X.
Variable noruns : X -> bool.
Hypothesis New : noruns newp = true.
Variables (nr nc : nat) (r : nat -> nat -> region) (src : list (Q * list (wcell X))).
Hypothesis Part : partition nr nc r.
Hypothesis Fits : fits_regions nr nc r src.

Definition tp p q := reg_top (r p q).
Definition lf p q := reg_left (r p q).
Definition rw p q : nat := let '(_, _, a, _) := r p q in a.
Definition cl p q : nat := let '(_, _, _, b) := r p q in b.
Lemma region_eta p q : r p q = (tp p q, lf p q, rw p q, cl p q).
Proof. unfold tp, lf, rw, cl. destruct (r p q) as (((? & ?) & ?) & ?). reflexivity. Qed.
Lemma region_own p q : p < nr -> q < nc -> tp p q <= p < tp p q + rw p q /\ lf p q <= q < lf p q + cl p q.
Proof. intros Hp Hq. destruct (Part p q Hp Hq) as (H & _). rewrite region_eta in H. exact H. Qed.
Lemma region_same p q p' q' : p < nr -> q < nc -> tp p q <= p' < tp p q + rw p q -> lf p q <= q' < lf p q + cl p q -> p' < nr /\ q' < nc /\ r p' q' = r p q.
Proof. intros Hp Hq H1 H2. destruct (Part p q Hp Hq) as (_ & H). apply H. rewrite region_eta. split; assumption. Qed.
Lemma same_parts p q p' q' : r p' q' = r p q -> tp p' q' = tp p q /\ lf p' q' = lf p q /\ rw p' q' = rw p q /\ cl p' q' = cl p q.
Proof. intro E. unfold tp, lf, rw, cl. rewrite E. auto. Qed.
Lemma region_fits p q : p < nr -> q < nc -> tp p q + rw p q <= nr /\ lf p q + cl p q <= nc.
Proof.
  intros Hp Hq. pose proof (region_own p q Hp Hq). 
  destruct (region_same p q (tp p q + rw p q - 1) (lf p q + cl p q - 1) Hp Hq) as (A & B & _); lia.
Qed.
Lemma region_start p q : p < nr -> q < nc -> r (tp p q) (lf p q) = r p q.
Proof. intros Hp Hq. pose proof (region_own p q Hp Hq). apply region_same; auto; lia. Qed.

Definition ce (i j : nat) : wcell X := match cell_of src i j with Some c => c | None => mkW None false None end.
Lemma ce_spec i j : i < nr -> j < nc ->
  match wc_info (ce i j) with
  | Some b => r i j = (i, j, fst (bc_merged b), snd (bc_merged b))
  | None => (tp i j, lf i j) <> (i, j) /\ wc_vert (ce i j) = false /\ wc_fill (ce i j) = None
  end.
Proof.
  intros Hi Hj. destruct Fits as (Hl & Hf). unfold ce, cell_of. destruct (nth_error src i) as [[h cells]|] eqn:E.
  - destruct (Hf i h cells E) as (Hc & Hc2). destruct (nth_error cells j) as [c|] eqn:E2; [apply (Hc2 j c E2)|apply nth_error_None in E2; lia].
  - apply nth_error_None in E. lia.
Qed.

(* ---------------- the grid after [t] cells ---------------- *)
Definition idx (p q : nat) : nat := p * nc + q.
Definition done (t p q : nat) : bool := idx (tp p q) (lf p q) <? t.
Definition mine (i j k : nat) : bool := (tp (k / nc) (k mod nc) =? i) && (lf (k / nc) (k mod nc) =? j).
Definition cnt (t i j : nat) : nat := List.length (filter (mine i j) (seq 0 t)).
Definition e_top i j := fst (fst (fst (wc_edges (ce i j)))).
Definition e_end i j := snd (fst (fst (wc_edges (ce i j)))).
Definition e_bottom i j := snd (fst (wc_edges (ce i j))).
Definition e_start i j := snd (wc_edges (ce i j)).
Definition e_shd i j : list Z := match wc_info (ce i j) with Some b => match bc_bg b with Some z => [z] | None => [] end | None => [] end.
Definition e_width i j : option Q := match wc_info (ce i j) with Some b => Some (rx1 (bc_bbox b) - rx0 (bc_bbox b))%Q | None => None end.
Definition main_pr t i j : tcpr := mkPr (e_top i j) (e_end i j) (e_bottom i j) (e_start i j) (e_shd i j) (cnt t i j) (if wc_vert (ce i j) then 1 else 0) (e_width i j).
Definition cont_pr i j : tcpr := mkPr (e_top i j) (e_end i j) (e_bottom i j) (e_start i j) [] 0 0 None.
Definition body i j : list X := match wc_fill (ce i j) with Some b => b | None => [newp] end.
Definition Lt t p q : nat := if done t p q then lf p q else q.
Definition Wt t p q : nat := if done t p q then cl p q else 1.
Definition mkt t p q : tc X :=
  if done t p q then
    if p =? tp p q then mkTc (cl p q) (if rw p q =? 1 then Single else Restart) (main_pr t (tp p q) (lf p q)) (body (tp p q) (lf p q))
    else mkTc (cl p q) Continue (cont_pr (tp p q) (lf p q)) [newp]
  else fresh newp.
Definition state t : grid X := fgrid nr nc (Lt t) (mkt t).

Lemma done_same t p q p' q' : r p' q' = r p q -> done t p' q' = done t p q.
Proof. intro E. apply same_parts in E. destruct E as (E1 & E2 & _). unfold done. rewrite E1, E2. reflexivity. Qed.
Lemma state_ok t : gok nr nc (Lt t) (Wt t) (mkt t).
Proof.
  split; [|split].
  - intros p Hp q Hq. unfold Lt, Wt. pose proof (region_own p q Hp Hq) as O. destruct (done t p q) eqn:E.
    + split; [apply O|]. split; [apply region_fits; assumption|]. intros q' Hq'.
      destruct (region_same p q p q' Hp Hq) as (_ & _ & E1); [lia|lia|]. rewrite (done_same t p q p q' E1), E. apply same_parts in E1.
      destruct E1 as (_ & -> & _ & ->). auto.
    + split; [lia|]. split; [lia|]. intros q' Hq'. assert (q' = q) by lia. subst q'. rewrite E. auto.
  - intros p q Hp Hq. unfold Lt, Wt, mkt. destruct (done t p q) eqn:E; [|reflexivity]. intros _. destruct (p =? tp p q); reflexivity.
  - intros q Hn Hq. unfold mkt. destruct (done t 0 (Lt t 0 q)); [|discriminate].
    assert (H : Lt t 0 q < nc) by (unfold Lt; destruct (done t 0 q); [pose proof (region_own 0 q Hn Hq); lia|exact Hq]).
    pose proof (region_own 0 (Lt t 0 q) Hn H). destruct (0 =? tp 0 (Lt t 0 q)) eqn:E; [|apply Nat.eqb_neq in E; lia].
    cbn [t_vm]. destruct (rw _ _ =? 1); discriminate.
Qed.
Lemma state_adr t p q : p < nr -> q < nc -> adr (Lt t) (mkt t) p q = if done t p q then (tp p q, lf p q) else (p, q).
Proof.
  revert q. induction p as [|p IH]; intros q Hp Hq; cbn [adr].
  - unfold Lt. destruct (done t 0 q) eqn:E.
    + pose proof (region_own 0 q Hp Hq) as O. destruct (region_same 0 q 0 (lf 0 q) Hp Hq) as (_ & _ & E1); [lia|lia|].
      unfold mkt. rewrite (done_same t 0 q 0 (lf 0 q) E1), E. apply same_parts in E1. destruct E1 as (-> & -> & -> & ->).
      destruct (0 =? tp 0 q) eqn:E2; [|apply Nat.eqb_neq in E2; lia]. apply Nat.eqb_eq in E2. rewrite <- E2. cbn [t_vm]. destruct (rw 0 q =? 1); reflexivity.
    + unfold mkt. rewrite E. reflexivity.
  - pose proof (region_own (S p) q Hp Hq) as O. unfold Lt. destruct (done t (S p) q) eqn:E.
    + destruct (region_same (S p) q (S p) (lf (S p) q) Hp Hq) as (_ & _ & E1); [lia|lia|].
      unfold mkt at 1. rewrite (done_same t (S p) q (S p) (lf (S p) q) E1), E. apply same_parts in E1. destruct E1 as (-> & -> & -> & ->).
      destruct (S p =? tp (S p) q) eqn:E2.
      * apply Nat.eqb_eq in E2. rewrite <- E2. cbn [t_vm]. destruct (rw (S p) q =? 1); reflexivity.
      * apply Nat.eqb_neq in E2. cbn [t_vm].
        destruct (region_same (S p) q p q Hp Hq) as (_ & _ & E3); [lia|lia|].
        fold (Lt t p q). change (adr (fun p q => Lt t p q) (mkt t) p q) with (adr (Lt t) (mkt t) p q). 
        rewrite IH by lia. rewrite (done_same t (S p) q p q E3), E. apply same_parts in E3. destruct E3 as (-> & -> & _). reflexivity.
    + unfold mkt at 1. rewrite E. reflexivity.
Qed.
Lemma table_state t p q : p < nr -> q < nc -> table_cell nc (state t) p q = Some (if done t p q then (tp p q, lf p q) else (p, q)).
Proof. intros Hp Hq. unfold state. rewrite (cell_fgrid nr nc (Lt t) (Wt t) (mkt t)); auto using state_ok. rewrite state_adr; auto. Qed.

(* ---------------- counting ---------------- *)
Lemma cnt_S t i j : cnt (S t) i j = cnt t i j + (if mine i j t then 1 else 0).
Proof.
  unfold cnt. rewrite seq_S, filter_app, app_length. cbn [filter]. rewrite Nat.add_0_l. destruct (mine i j t); reflexivity.
Qed.
Lemma mine_at i j p q : q < nc -> mine i j (idx p q) = ((tp p q =? i) && (lf p q =? j)).
Proof.
  intro Hq. unfold mine, idx. assert (H : (p * nc + q) / nc = p /\ (p * nc + q) mod nc = q).
  { rewrite (Nat.add_comm (p * nc)), Nat.mod_add, Nat.div_add by lia. rewrite Nat.div_small, Nat.mod_small by exact Hq. auto. }
  destruct H as (-> & ->). reflexivity.
Qed.
Lemma idx_lt p q p' q' : q < nc -> q' < nc -> p <= p' -> q <= q' -> (p, q) <> (p', q') -> idx p q < idx p' q'.
Proof.
  intros H1 H2 H3 H4 N. unfold idx. destruct (Nat.eq_dec p p') as [->|E].
  - destruct (Nat.eq_dec q q') as [->|E']; [contradiction|lia].
  - assert (S p * nc <= p' * nc) by (apply Nat.mul_le_mono_r; lia). lia.
Qed.
Lemma idx_inj p q p' q' : q < nc -> q' < nc -> idx p q = idx p' q' -> p = p' /\ q = q'.
Proof.
  intros H1 H2 E. unfold idx in E. destruct (Nat.lt_total p p') as [H|[H|H]].
  - assert (S p * nc <= p' * nc) by (apply Nat.mul_le_mono_r; lia). lia.
  - subst p'. lia.
  - assert (S p' * nc <= p * nc) by (apply Nat.mul_le_mono_r; lia). lia.
Qed.
(** Only the region starting at (i, j) changes its state. *)
Lemma done_S i j p q : j < nc -> p < nr -> q < nc -> (tp p q, lf p q) <> (i, j) -> done (S (idx i j)) p q = done (idx i j) p q.
Proof.
  intros Hj Hp Hq N. unfold done. pose proof (region_own p q Hp Hq) as O. pose proof (region_fits p q Hp Hq).
  destruct (idx (tp p q) (lf p q) <? idx i j) eqn:E.
  - apply Nat.ltb_lt in E. apply Nat.ltb_lt. lia.
  - apply Nat.ltb_ge in E. apply Nat.ltb_ge. destruct (Nat.eq_dec (idx (tp p q) (lf p q)) (idx i j)) as [D|D]; [|lia].
    exfalso. apply idx_inj in D; [|lia|exact Hj]. destruct D as (D1 & D2). apply N. rewrite D1, D2. reflexivity.
Qed.

(* ---------------- a place inside a merged cell ---------------- *)
Lemma border_none p : set_border None None None None p = p.
Proof. destruct p. reflexivity. Qed.
Lemma put_id r0 c (f : tc X -> tc X) mk p q : (forall t, f t = t) -> put r0 c f mk p q = mk p q.
Proof. intro F. unfold put. destruct (_ && _); [apply F|reflexivity]. Qed.
Lemma with_pr_id f (t : tc X) : (forall p, f p = p) -> with_pr f t = t.
Proof. intro F. destruct t. unfold with_pr. cbn. rewrite F. reflexivity. Qed.

Lemma step_covered i j : i < nr -> j < nc -> wc_info (ce i j) = None ->
  cell_make_docx newp noruns nc i j (ce i j) (state (idx i j)) = Some (state (S (idx i j))).
Proof.
  intros Hi Hj En. pose proof (ce_spec i j Hi Hj) as C. rewrite En in C. destruct C as (N & Ev & Ef).
  pose proof (region_own i j Hi Hj) as O. pose proof (region_fits i j Hi Hj) as Ft.
  assert (D : done (idx i j) i j = true).
  { unfold done. apply Nat.ltb_lt. apply idx_lt; try lia. exact N. }
  unfold cell_make_docx, set_style. rewrite table_state by assumption. rewrite D. cbn [obind].
  unfold wc_edges, wc_merged. rewrite En. cbn [fst snd]. unfold positions. cbn [seq flat_map map app border_all].
  rewrite table_state by assumption. rewrite D. cbn [obind fst snd border_all]. rewrite Ev.
  set (a := tp i j) in *. set (c := lf i j) in *.
  pose proof (state_ok (idx i j)) as OK.
  assert (Es : r a c = r i j) by (apply region_start; assumption).
  assert (Dc : done (idx i j) a c = true) by (rewrite (done_same _ i j a c Es); exact D).
  pose proof (same_parts i j a c Es) as (T1 & T2 & T3 & T4). fold a c in T1, T2.
  assert (Lc : Lt (idx i j) a c = c) by (unfold Lt; rewrite Dc; exact T2).
  unfold state. rewrite (upd_fgrid nr nc (Lt (idx i j)) (Wt (idx i j))); [|exact OK|lia|lia|exact Lc].
  rewrite (upd_fgrid nr nc (Lt (idx i j)) (Wt (idx i j))); [|apply gok_put; auto|lia|lia|exact Lc].
  f_equal.
  assert (Dall : forall p q, p < nr -> q < nc -> done (S (idx i j)) p q = done (idx i j) p q).
  { intros p q Hp Hq. apply done_S; auto. intro E. injection E as E1 E2.
    destruct (region_same p q i j Hp Hq) as (_ & _ & E3). { pose proof (region_own p q Hp Hq). lia. } { pose proof (region_own p q Hp Hq). lia. }
    apply N. apply same_parts in E3. destruct E3 as (E4 & E5 & _). unfold a, c. rewrite E4, E5, E1, E2. reflexivity. }
  apply fgrid_ext.
  - intros p q Hp Hq. unfold Lt. rewrite (Dall p q Hp Hq). reflexivity.
  - intros p q Hp Hq EL. unfold put at 1.
    rewrite put_id by (intro t; apply with_pr_id, border_none).
    unfold mkt. rewrite (Dall p q Hp Hq). destruct (done (idx i j) p q) eqn:Dp.
    + destruct ((p =? a) && (q =? c)) eqn:E.
      * apply andb_true_iff in E. destruct E as (E1 & E2). apply Nat.eqb_eq in E1, E2. subst p q.
        rewrite T1, T2, Nat.eqb_refl. unfold with_pr. cbn [t_span t_vm t_pr t_body]. f_equal. unfold main_pr, add_margin. cbn [pr_top pr_end pr_bottom pr_start pr_shd pr_mar pr_vert pr_width]. f_equal.
        rewrite cnt_S, mine_at by exact Hj. fold a c. rewrite !Nat.eqb_refl. cbn. lia.
      * destruct (p =? tp p q) eqn:Ep; [|reflexivity]. f_equal. unfold main_pr. f_equal. rewrite cnt_S, mine_at by exact Hj.
        fold a c. destruct ((a =? tp p q) && (c =? lf p q)) eqn:Ea; [|cbn; lia].
        exfalso. apply andb_true_iff in Ea. destruct Ea as (Ea & Ec). apply Nat.eqb_eq in Ep, Ea, Ec.
        unfold Lt in EL. rewrite Dp in EL. rewrite Ea, Ec, <- Ep, EL, !Nat.eqb_refl in E. discriminate.
    + destruct ((p =? a) && (q =? c)) eqn:E; [|reflexivity]. apply andb_true_iff in E. destruct E as (E1 & E2). apply Nat.eqb_eq in E1, E2. subst p q. rewrite Dc in Dp. discriminate.
Qed.

(* ---------------- borders of a region ---------------- *)
Lemma border_fgrid n m L W f : forall l (mk : nat -> nat -> tc X), gok n m L W mk ->
  (forall p q, In (p, q) l -> p < n /\ q < m /\ L p q = q /\ adr L mk p q = (p, q)) ->
  border_all m f l (fgrid n m L mk) = Some (fgrid n m L (fold_left (fun k x => put (fst x) (snd x) (with_pr f) k) l mk)).
Proof.
  induction l as [|[p q] l IH]; intros mk Ok H; [reflexivity|]. cbn [border_all fold_left fst snd].
  destruct (H p q) as (Hp & Hq & HL & HA); [left; reflexivity|].
  rewrite (cell_fgrid n m L W) by assumption. rewrite HA. cbn [obind fst snd].
  rewrite (upd_fgrid n m L W) by assumption. apply IH.
  - apply gok_put; auto.
  - intros p' q' Hin. destruct (H p' q') as (A & B & C & D); [right; exact Hin|]. rewrite adr_put by reflexivity. auto.
Qed.
Lemma fold_puts (f : tc X -> tc X) : (forall t, f (f t) = f t) -> forall l mk p q,
  fold_left (fun k x => put (fst x) (snd x) f k) l mk p q = if existsb (fun x => (p =? fst x) && (q =? snd x)) l then f (mk p q) else mk p q.
Proof.
  intros F l. induction l as [|[a c] l IH]; intros mk p q; [reflexivity|]. cbn [fold_left existsb fst snd]. rewrite IH. unfold put.
  destruct ((p =? a) && (q =? c)); cbn [orb]; [|reflexivity]. destruct (existsb _ l); [apply F|reflexivity].
Qed.
Lemma fold_gok n m L W f l : forall mk : nat -> nat -> tc X, (forall t, t_span (f t) = t_span t) -> (forall t, t_vm (f t) = t_vm t) -> gok n m L W mk ->
  gok n m L W (fold_left (fun k x => put (fst x) (snd x) f k) l mk).
Proof. induction l as [|x l IH]; intros mk F1 F2 H; [exact H|]. cbn [fold_left]. apply IH; auto. apply gok_put; auto. Qed.
Lemma fold_adr L (f : tc X -> tc X) l : forall mk p q, (forall t, t_vm (f t) = t_vm t) ->
  adr L (fold_left (fun k x => put (fst x) (snd x) f k) l mk) p q = adr L mk p q.
Proof. induction l as [|x l IH]; intros mk p q F; [reflexivity|]. cbn [fold_left]. rewrite IH by exact F. apply adr_put, F. Qed.
Lemma positions_in i j a b p q : existsb (fun x => (p =? fst x) && (q =? snd x)) (positions i j a b) = inreg i j a b p q.
Proof.
  apply Bool.eq_iff_eq_true. rewrite existsb_exists, inreg_spec. unfold positions. split.
  - intros ([p' q'] & Hin & E). apply andb_true_iff in E. cbn [fst snd] in E. rewrite !Nat.eqb_eq in E. destruct E as (-> & ->).
    apply in_flat_map in Hin. destruct Hin as (m & Hm & Hin). apply in_map_iff in Hin. destruct Hin as (n & En & Hn). injection En as <- <-.
    apply in_seq in Hm, Hn. lia.
  - intros (Hp & Hq). exists (p, q). split; [|cbn [fst snd]; rewrite !Nat.eqb_refl; reflexivity].
    apply in_flat_map. exists p. split; [apply in_seq; lia|]. apply (in_map (fun n => (p, n))). apply in_seq. lia.
Qed.
Lemma over_twice n o : WordModel.over n (WordModel.over n o) = WordModel.over n o.
Proof. destruct n; reflexivity. Qed.
Lemma border_twice a b c d (t : tc X) : with_pr (set_border a b c d) (with_pr (set_border a b c d) t) = with_pr (set_border a b c d) t.
Proof. unfold with_pr, set_border. cbn. rewrite !over_twice. reflexivity. Qed.

(* ---------------- a cell of its own ---------------- *)
Lemma step_main i j b : i < nr -> j < nc -> wc_info (ce i j) = Some b ->
  cell_make_docx newp noruns nc i j (ce i j) (state (idx i j)) = Some (state (S (idx i j))).
Proof.
  intros Hi Hj Eb. pose proof (ce_spec i j Hi Hj) as C. rewrite Eb in C.
  destruct (bc_merged b) as [a w] eqn:Em. cbn [fst snd] in C.
  pose proof (region_own i j Hi Hj) as O. pose proof (region_fits i j Hi Hj) as Ft.
  assert (P : tp i j = i /\ lf i j = j /\ rw i j = a /\ cl i j = w) by (unfold tp, lf, rw, cl; rewrite C; auto).
  destruct P as (Pt & Pl & Pr & Pc). rewrite Pt, Pl, Pr, Pc in *.
  set (t := idx i j) in *. pose proof (state_ok t) as OK.
  assert (Reg : forall p q, i <= p < i + a -> j <= q < j + w -> p < nr /\ q < nc /\ r p q = r i j).
  { intros p q Hp Hq. apply region_same; auto; rewrite ?Pt, ?Pl, ?Pr, ?Pc; assumption. }
  assert (D : forall p q, i <= p < i + a -> j <= q < j + w -> done t p q = false).
  { intros p q Hp Hq. destruct (Reg p q Hp Hq) as (_ & _ & E). rewrite (done_same t i j p q E). unfold done. rewrite Pt, Pl. unfold t. apply Nat.ltb_irrefl. }
  assert (D' : forall p q, i <= p < i + a -> j <= q < j + w -> done (S t) p q = true).
  { intros p q Hp Hq. destruct (Reg p q Hp Hq) as (_ & _ & E). rewrite (done_same (S t) i j p q E). unfold done. rewrite Pt, Pl. apply Nat.ltb_lt. unfold t. lia. }
  assert (Dn : forall p q, p < nr -> q < nc -> inreg i j a w p q = false -> done (S t) p q = done t p q /\ (tp p q, lf p q) <> (i, j)).
  { intros p q Hp Hq Hr. assert (N : (tp p q, lf p q) <> (i, j)).
    { intro E. injection E as E1 E2. pose proof (region_own p q Hp Hq) as O2.
      destruct (region_same p q i j Hp Hq) as (_ & _ & E3); [lia|lia|]. 
      assert (inreg i j a w p q = true); [|congruence]. apply inreg_spec. apply same_parts in E3. destruct E3 as (_ & _ & E4 & E5). lia. }
    split; [|exact N]. apply done_S; auto. }
  unfold cell_make_docx, set_style. rewrite table_state by assumption. rewrite (D i j) by lia. cbn [obind].
  destruct (wc_edges (ce i j)) as [[[e1 e2] e3] e4] eqn:Ee.
  unfold wc_merged. rewrite Eb, Em. cbn [fst snd].
  set (F := set_border e1 e2 e3 e4).
  unfold state. rewrite (border_fgrid nr nc (Lt t) (Wt t)); [|exact OK|].
  2:{ intros p q Hin. assert (R : inreg i j a w p q = true).
      { rewrite <- positions_in. apply existsb_exists. exists (p, q). cbn [fst snd]. rewrite !Nat.eqb_refl. auto. }
      apply inreg_spec in R. destruct R as (R1 & R2). destruct (Reg p q R1 R2) as (A1 & A2 & _).
      rewrite state_adr by assumption. unfold Lt. rewrite (D p q R1 R2). auto. }
  cbn [obind].
  set (mk1 := fold_left _ _ _).
  assert (M1 : forall p q, mk1 p q = if inreg i j a w p q then with_pr F (mkt t p q) else mkt t p q).
  { intros p q. unfold mk1. rewrite fold_puts by (intro; apply border_twice). rewrite positions_in. reflexivity. }
  assert (OK1 : gok nr nc (Lt t) (Wt t) mk1) by (unfold mk1; apply fold_gok; auto).
  assert (Lij : Lt t i j = j) by (unfold Lt; rewrite (D i j) by lia; reflexivity).
  assert (A1 : forall p q, adr (Lt t) mk1 p q = adr (Lt t) (mkt t) p q) by (intros; unfold mk1; apply fold_adr; reflexivity).
  (* shading, margin, direction *)
  set (f2 := fun x : tc X => match bc_bg b with Some z => with_pr (add_shading z) x | None => x end).
  set (f3 := fun x : tc X => if wc_vert (ce i j) then with_pr add_vertical x else x).
  assert (S2 : exists mk2, gok nr nc (Lt t) (Wt t) mk2 /\ (forall p q, adr (Lt t) mk2 p q = adr (Lt t) (mkt t) p q) /\
    (forall p q, mk2 p q = if (p =? i) && (q =? j) then f3 (with_pr add_margin (f2 (mk1 p q))) else mk1 p q) /\
    (if wc_vert (ce i j)
     then upd_tc i j (with_pr add_vertical) (upd_tc i j (with_pr add_margin) match bc_bg b with Some z => upd_tc i j (with_pr (add_shading z)) (fgrid nr nc (Lt t) mk1) | None => fgrid nr nc (Lt t) mk1 end)
     else upd_tc i j (with_pr add_margin) match bc_bg b with Some z => upd_tc i j (with_pr (add_shading z)) (fgrid nr nc (Lt t) mk1) | None => fgrid nr nc (Lt t) mk1 end)
    = fgrid nr nc (Lt t) mk2).
  { assert (U : forall f (mk : nat -> nat -> tc X), gok nr nc (Lt t) (Wt t) mk -> upd_tc i j (with_pr f) (fgrid nr nc (Lt t) mk) = fgrid nr nc (Lt t) (put i j (with_pr f) mk)) by (intros; apply (upd_fgrid nr nc (Lt t) (Wt t)); assumption).
    unfold f2, f3. destruct (bc_bg b) as [z|]; destruct (wc_vert (ce i j));
      repeat (rewrite U by (repeat apply gok_put; auto)); eexists; (split; [|split; [|split; [|reflexivity]]]);
      try (repeat apply gok_put; auto; fail);
      try (intros; rewrite ?adr_put by reflexivity; apply A1);
      (intros p q; unfold put; destruct ((p =? i) && (q =? j)); reflexivity). }
  destruct S2 as (mk2 & OK2 & A2 & M2 & E2).
  match goal with |- obind (table_cell nc ?G i j) _ = _ => replace G with (fgrid nr nc (Lt t) mk2) by (symmetry; exact E2) end. clear E2.
  rewrite (cell_fgrid nr nc (Lt t) (Wt t)) by assumption. rewrite A2, state_adr by assumption. rewrite (D i j) by lia. cbn [obind fst snd].
  (* merging *)
  assert (Plain : forall p q, i <= p < i + a -> j <= q < j + w -> Lt t p q = q /\ Wt t p q = 1 /\ t_vm (mk2 p q) = Single /\ t_body (mk2 p q) = [newp]).
  { intros p q Hp Hq. unfold Lt, Wt. rewrite (D p q Hp Hq). split; [reflexivity|]. split; [reflexivity|].
    rewrite M2, M1. unfold mkt. rewrite (D p q Hp Hq). unfold f2, f3.
    destruct ((p =? i) && (q =? j)); destruct (inreg i j a w p q); destruct (bc_bg b); destruct (wc_vert (ce i j)); split; reflexivity. }
  assert (Fit : 1 <= a /\ 1 <= w /\ i + a <= nr /\ j + w <= nc) by lia.
  assert (Mg : (if a * w =? 1 then Some (fgrid nr nc (Lt t) mk2)
     else obind (table_cell nc (fgrid nr nc (Lt t) mk2) (i + a - 1) (j + w - 1)) (fun z => merge newp noruns (fgrid nr nc (Lt t) mk2) (i, j) z))
     = Some (fgrid nr nc (mL (Lt t) i j a w) (mmk mk2 i j a w))).
  { destruct (a * w =? 1) eqn:E1.
    - apply Nat.eqb_eq in E1. apply Nat.eq_mul_1 in E1. destruct E1 as (-> & ->). f_equal. apply fgrid_ext.
      + intros p q Hp Hq. unfold mL. destruct (inreg i j 1 1 p q) eqn:Er; [|reflexivity]. apply inreg_spec in Er.
        destruct (Plain p q) as (P1 & _); [lia|lia|]. lia.
      + intros p q Hp Hq EL. unfold mmk. destruct (inreg i j 1 1 p q) eqn:Er; [|reflexivity]. apply inreg_spec in Er.
        destruct (Plain p q) as (P1 & P2 & P3 & P4); [lia|lia|]. assert (p = i) by lia. subst p. rewrite !Nat.eqb_refl.
        destruct OK2 as (_ & Hw & _). pose proof (Hw i q Hp Hq P1) as Hs. rewrite P2 in Hs. destruct (mk2 i q); cbn in *. subst. reflexivity.
    - rewrite (cell_fgrid nr nc (Lt t) (Wt t)); [|exact OK2|lia|lia]. rewrite A2, state_adr by lia. rewrite (D (i + a - 1) (j + w - 1)) by lia. cbn [obind].
      apply (merge_region newp noruns New nr nc (Lt t) (Wt t) mk2 OK2 i j a w Fit Plain). }
  match goal with |- obind ?G _ = _ => replace G with (Some (fgrid nr nc (mL (Lt t) i j a w) (mmk mk2 i j a w))) by (symmetry; exact Mg) end. cbn [obind]. clear Mg.
  pose proof (merged_gok newp nr nc (Lt t) (Wt t) mk2 OK2 i j a w Fit Plain) as OK3.
  assert (L3 : mL (Lt t) i j a w i j = j) by (unfold mL; rewrite (proj2 (inreg_spec i j a w i j)) by lia; reflexivity).
  rewrite (upd_fgrid nr nc (mL (Lt t) i j a w) (mW (Wt t) i j a w)) by assumption.
  set (mk3 := put i j _ _).
  assert (OK4 : gok nr nc (mL (Lt t) i j a w) (mW (Wt t) i j a w) mk3) by (apply gok_put; auto).
  set (f4 := fun x : tc X => match wc_fill (ce i j) with Some body => with_body body x | None => x end).
  assert (E4 : (match wc_fill (ce i j) with Some body => upd_tc i j (with_body body) (fgrid nr nc (mL (Lt t) i j a w) mk3) | None => fgrid nr nc (mL (Lt t) i j a w) mk3 end)
    = fgrid nr nc (mL (Lt t) i j a w) (fun p q => if (p =? i) && (q =? j) then f4 (mk3 p q) else mk3 p q)).
  { unfold f4. destruct (wc_fill (ce i j)) as [bd|].
    - rewrite (upd_fgrid nr nc (mL (Lt t) i j a w) (mW (Wt t) i j a w)) by assumption. reflexivity.
    - apply fgrid_ext; [reflexivity|]. intros p q _ _ _. destruct (_ && _); reflexivity. }
  match goal with |- Some ?G = _ => replace G with (fgrid nr nc (mL (Lt t) i j a w) (fun p q => if (p =? i) && (q =? j) then f4 (mk3 p q) else mk3 p q)) by (symmetry; exact E4) end. clear E4.
  f_equal. apply fgrid_ext.
  - intros p q Hp Hq. unfold mL, Lt. destruct (inreg i j a w p q) eqn:Er.
    + apply inreg_spec in Er. destruct Er as (R1 & R2). rewrite (D' p q R1 R2). destruct (Reg p q R1 R2) as (_ & _ & E). apply same_parts in E.
      destruct E as (_ & -> & _). rewrite Pl. reflexivity.
    + destruct (Dn p q Hp Hq Er) as (-> & _). reflexivity.
  - intros p q Hp Hq EL. unfold mk3, put, mmk. destruct (inreg i j a w p q) eqn:Er.
    + assert (Er2 := Er). apply inreg_spec in Er. destruct Er as (R1 & R2). unfold mL in EL. rewrite Er2 in EL. subst q.
      rewrite M2, M1, Er2. unfold mkt. rewrite (D p j R1 R2), (D' p j R1 R2). destruct (Reg p j R1 R2) as (_ & _ & E). apply same_parts in E.
      destruct E as (-> & -> & -> & ->). rewrite Pt, Pl, Pr, Pc.
      assert (EE : e1 = e_top i j /\ e2 = e_end i j /\ e3 = e_bottom i j /\ e4 = e_start i j) by (unfold e_top, e_end, e_bottom, e_start; rewrite Ee; auto).
      destruct EE as (-> & -> & -> & ->).
      assert (Ov : forall x, WordModel.over x None = x) by (intros []; reflexivity).
      destruct (p =? i) eqn:Ep.
      * rewrite Nat.eqb_refl. cbn [andb]. unfold f4, f3, f2, F, body, main_pr, e_shd, e_width. rewrite Eb.
        assert (Cn : cnt (S t) i j = 1).
        { rewrite cnt_S. unfold t. rewrite mine_at by exact Hj. rewrite Pt, Pl, !Nat.eqb_refl. cbn.
          assert (Z : cnt (idx i j) i j = 0); [|lia]. unfold cnt. assert (Zn : forall l, (forall k, In k l -> k < idx i j) -> filter (mine i j) l = []); [|rewrite Zn; [reflexivity|intros k Hk; apply in_seq in Hk; lia]].
          induction l as [|k l IHl]; intro Hl; [reflexivity|]. cbn [filter]. rewrite IHl by (intros; apply Hl; right; assumption).
          assert (Hk : k < idx i j) by (apply Hl; left; reflexivity).
          assert (Zk : mine i j k = false); [|rewrite Zk; reflexivity]. unfold mine. apply not_true_is_false. intro Em2. apply andb_true_iff in Em2. rewrite !Nat.eqb_eq in Em2. destruct Em2 as (X1 & X2).
          assert (Hnc : nc <> 0) by lia.
          assert (Hkn : k / nc < nr) by (apply Nat.div_lt_upper_bound; [exact Hnc|]; unfold idx in Hk; nia).
          pose proof (region_own (k / nc) (k mod nc) Hkn (Nat.mod_upper_bound k nc Hnc)) as O3. rewrite X1, X2 in O3.
          pose proof (Nat.div_mod k nc Hnc) as Hd. unfold idx in Hk. nia. }
        rewrite Cn. destruct (wc_fill (ce i j)); destruct (wc_vert (ce i j)); destruct (bc_bg b); unfold with_pr, with_body, set_width, add_margin, add_shading, add_vertical, set_border; cbn; rewrite !Ov; reflexivity.
      * cbn [andb]. unfold cont_pr, F, with_pr, set_border. cbn. rewrite !Ov. reflexivity.
    + destruct (Dn p q Hp Hq Er) as (E1 & N).
      destruct ((p =? i) && (q =? j)) eqn:E.
      { apply andb_true_iff in E. destruct E as (E2 & E3). apply Nat.eqb_eq in E2, E3. subst p q. rewrite (proj2 (inreg_spec i j a w i j)) in Er; [discriminate|lia]. }
      rewrite M2, E, M1, Er. unfold mkt. rewrite E1. destruct (done t p q); [|reflexivity]. destruct (p =? tp p q) eqn:Ep; [|reflexivity].
      f_equal. unfold main_pr. f_equal. rewrite cnt_S. unfold t. rewrite mine_at by exact Hj. rewrite Pt, Pl.
      destruct ((i =? tp p q) && (j =? lf p q)) eqn:E2; [|lia]. exfalso. apply N. apply andb_true_iff in E2. rewrite !Nat.eqb_eq in E2. destruct E2 as (<- & <-). reflexivity.
Qed.
Lemma step i j : i < nr -> j < nc -> cell_make_docx newp noruns nc i j (ce i j) (state (idx i j)) = Some (state (S (idx i j))).
Proof.
  intros Hi Hj. destruct (wc_info (ce i j)) as [b|] eqn:E; [apply (step_main i j b)|apply step_covered]; assumption.
Qed.

(* ---------------- the loops ---------------- *)
Lemma row_done i h cells : nth_error src i = Some (h, cells) -> forall n j, j + n = nc ->
  row_loop newp noruns nc i j n (skipn j cells) (state (idx i j)) = Some (state (idx (S i) 0)).
Proof.
  intros E. destruct Fits as (Hl & Hf). destruct (Hf i h cells E) as (Hc & _).
  assert (Hi : i < nr) by (rewrite <- Hl; apply nth_error_Some; congruence).
  induction n as [|n IH]; intros j Hj.
  - cbn [row_loop]. f_equal. f_equal. unfold idx. cbn. lia.
  - cbn [row_loop]. destruct (nth_error cells j) as [c|] eqn:Ec; [|apply nth_error_None in Ec; lia].
    assert (Es : skipn j cells = c :: skipn (S j) cells).
    { clear -Ec. revert j Ec. induction cells as [|x l IH]; intros [|j] Ec; try discriminate; cbn in Ec; [injection Ec as ->; reflexivity|]. cbn [skipn]. apply IH, Ec. }
    rewrite Es. assert (Ece : c = ce i j) by (unfold ce, cell_of; rewrite E, Ec; reflexivity). rewrite Ece.
    rewrite step by lia. cbn [obind]. replace (S (idx i j)) with (idx i (S j)) by (unfold idx; lia). apply IH. lia.
Qed.
Lemma fresh_grid : state 0 = new_grid newp nr nc.
Proof.
  unfold state, fgrid, new_grid.
  assert (E : forall p k s, pieces X (Lt 0 p) (mkt 0 p) s k = repeat (fresh newp) k).
  { intros p k. unfold pieces. induction k as [|k IH]; intro s; [reflexivity|]. cbn [seq flat_map repeat]. rewrite IH. unfold Lt, mkt, done. cbn. rewrite Nat.eqb_refl. reflexivity. }
  assert (E2 : forall k s, map (fun p => pieces X (Lt 0 p) (mkt 0 p) 0 nc) (seq s k) = repeat (repeat (fresh newp) nc) k).
  { induction k as [|k IH]; intro s; [reflexivity|]. cbn [seq map repeat]. rewrite IH, E. reflexivity. }
  apply E2.
Qed.
Hypothesis Heights : forall h cells, In (h, cells) src -> (0 <= h)%Q.
Lemma pt_nonneg h : (0 <= h)%Q -> (pt h <? 0)%Z = false.
Proof.
  intro H. apply Z.ltb_ge. unfold pt. apply qtrunc_nonneg. setoid_replace 0%Q with (12700 * 0)%Q by ring. apply Qmult_le_l; [reflexivity|exact H].
Qed.
Lemma rows_done : forall l i pre, src = pre ++ l -> List.length pre = i -> rows_loop newp noruns nc i l (state (idx i 0)) = Some (state (idx nr 0)).
Proof.
  induction l as [|[h cells] l IH]; intros i pre E Hp.
  - cbn [rows_loop]. rewrite app_nil_r in E. subst pre. destruct Fits as (Hl & _). f_equal. f_equal. f_equal. lia.
  - cbn [rows_loop]. rewrite pt_nonneg. 2:{ apply (Heights h cells). rewrite E. apply in_or_app. right. left. reflexivity. }
    assert (En : nth_error src i = Some (h, cells)) by (rewrite E, nth_error_app2, Hp, Nat.sub_diag by lia; reflexivity).
    pose proof (row_done i h cells En nc 0 eq_refl) as R. cbn [skipn] in R. rewrite R. cbn [obind].
    apply (IH (S i) (pre ++ [(h, cells)])); [rewrite E, <- app_assoc; reflexivity|]. rewrite app_length, Hp. cbn. lia.
Qed.
Lemma table_written : 0 < nr -> word_table newp noruns src = Some (map (fun x => pt (fst x)) src, state (idx nr 0)).
Proof.
  intro Hn. unfold word_table. destruct Fits as (Hl & Hf).
  destruct src as [|[h cells] l] eqn:Es; [cbn in Hl; lia|].
  destruct (Hf 0 h cells eq_refl) as (Hc & _). rewrite Hc. rewrite <- Es in *. rewrite Hl. rewrite <- fresh_grid.
  change 0 with (idx 0 0) at 2. rewrite (rows_done src 0 []) by reflexivity. reflexivity.
Qed.
End Write.
