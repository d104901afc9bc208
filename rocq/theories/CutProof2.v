(** Lemmas of C81: tables that were not finished. *)
From Verif Require Import CutSpec ParaSpec TreeProof TreeProof2 TreeProof3 WordProof WordProof2 WordProof3 WordProps CutProof.
From Verif Require DocxModel DocxSpec DocxProof DocxProps FailModel.
From Coq Require Import Lia Lqa.
Open Scope nat_scope.

(** Text of the grid after [t] cells. *)
Definition fill_of {X Y} (f : X -> list Y) (c : wcell X) : list Y := match wc_fill c with Some items => flat_map f items | None => [] end.
Lemma state_text X Y (newp : X) (f : X -> list Y) nr nc r src t : f newp = [] -> TableSpec.partition nr nc r -> fits_regions nr nc r src ->
  flat_map (flat_map (fun x => flat_map f (t_body x))) (state newp nr nc r src t) = flat_map (fill_of f) (firstn t (concat (map snd src))).
Proof.
  intros Fn Part Fits.
  assert (Cell : forall p q, p < nr -> q < nc ->
    flat_map (fun x => flat_map f (t_body x)) (if Lt nc r t p q =? q then [mkt newp nc r src t p q] else []) =
    if idx nc p q <? t then fill_of f (ce src p q) else []).
  { intros p q Hp Hq. pose proof (ce_spec nr nc r src Fits p q Hp Hq) as C. unfold Lt, mkt, fill_of.
    destruct (wc_info (ce src p q)) as [b|] eqn:Eb.
    - assert (T : tp r p q = p /\ lf r p q = q) by (unfold tp, lf; rewrite C; auto). destruct T as (T1 & T2). unfold done. rewrite T1, T2. destruct (idx nc p q <? t).
      + rewrite !Nat.eqb_refl. cbn [flat_map t_body]. rewrite app_nil_r. unfold body. rewrite ?T1, ?T2. destruct (wc_fill (ce src p q)); [reflexivity|]. cbn. rewrite Fn. reflexivity.
      + rewrite Nat.eqb_refl. cbn. rewrite Fn. reflexivity.
    - destruct C as (N & _ & ->). transitivity (@nil Y); [|destruct (idx nc p q <? t); reflexivity]. destruct (done nc r t p q).
      + destruct (lf r p q =? q) eqn:E2; [|reflexivity]. apply Nat.eqb_eq in E2.
        destruct (p =? tp r p q) eqn:E1; [apply Nat.eqb_eq in E1; exfalso; apply N; rewrite <- E1, E2; reflexivity|]. cbn. rewrite Fn. reflexivity.
      + rewrite Nat.eqb_refl. cbn. rewrite Fn. reflexivity. }
  assert (Row : forall p k s, p < nr -> s + k <= nc -> flat_map (fun x => flat_map f (t_body x)) (pieces X (Lt nc r t p) (mkt newp nc r src t p) s k) =
    flat_map (fun q => if idx nc p q <? t then fill_of f (ce src p q) else []) (seq s k)).
  { intros p k. induction k as [|k IH]; intros s Hp Hk; [reflexivity|]. unfold pieces. cbn [seq flat_map]. rewrite flat_map_app. rewrite Cell by lia. f_equal. apply IH; lia. }
  assert (All : forall k s, s + k <= nr -> flat_map (flat_map (fun x => flat_map f (t_body x))) (map (fun p => pieces X (Lt nc r t p) (mkt newp nc r src t p) 0 nc) (seq s k)) =
    flat_map (fun p => flat_map (fun q => if idx nc p q <? t then fill_of f (ce src p q) else []) (seq 0 nc)) (seq s k)).
  { induction k as [|k IH]; intros s Hk; [reflexivity|]. cbn [seq map flat_map]. rewrite Row by lia. f_equal. apply IH. lia. }
  unfold state, fgrid. rewrite (All nr 0) by lia. clear Cell Row All. destruct Fits as (Hl & Hf).
  assert (One : forall (cells : list (wcell X)) (h : nat -> wcell X) u s, (forall j c, nth_error cells j = Some c -> h (s + j) = c) ->
    flat_map (fun q => if q <? u then fill_of f (h q) else []) (seq s (List.length cells)) = flat_map (fill_of f) (firstn (u - s) cells)).
  { induction cells as [|c cells IH]; intros h u s H; [rewrite firstn_nil; reflexivity|]. cbn [List.length seq flat_map]. rewrite (IH h u (S s)).
    2:{ intros j c0 Hj. rewrite <- (H (S j) c0 Hj). f_equal. lia. }
    pose proof (H 0 c eq_refl) as H0. rewrite Nat.add_0_r in H0. destruct (s <? u) eqn:E.
    - apply Nat.ltb_lt in E. replace (u - s) with (S (u - S s)) by lia. cbn [firstn flat_map]. rewrite H0. reflexivity.
    - apply Nat.ltb_ge in E. replace (u - s) with 0 by lia. replace (u - S s) with 0 by lia. reflexivity. }
  assert (Many : forall l s, (forall i h cells, nth_error l i = Some (h, cells) -> nth_error src (s + i) = Some (h, cells)) ->
    flat_map (fun p => flat_map (fun q => if idx nc p q <? t then fill_of f (ce src p q) else []) (seq 0 nc)) (seq s (List.length l)) = flat_map (fill_of f) (firstn (t - s * nc) (concat (map snd l)))).
  { induction l as [|[h cells] l IH]; intros s H; [rewrite firstn_nil; reflexivity|]. cbn [List.length seq flat_map map concat snd].
    pose proof (H 0 h cells eq_refl) as E. rewrite Nat.add_0_r in E. destruct (Hf s h cells E) as (Hc & _).
    rewrite IH by (intros i h0 c0 Hi; rewrite <- (H (S i) h0 c0 Hi); f_equal; lia).
    rewrite firstn_app, flat_map_app, Hc. replace (t - s * nc - nc) with (t - S s * nc) by (cbn; lia). f_equal.
    transitivity (flat_map (fun q => if q <? t - s * nc then fill_of f (ce src s q) else []) (seq 0 (List.length cells))).
    - rewrite Hc. assert (G : forall l0, flat_map (fun q => if idx nc s q <? t then fill_of f (ce src s q) else []) l0 = flat_map (fun q => if q <? t - s * nc then fill_of f (ce src s q) else []) l0).
      { induction l0 as [|q l0 IH0]; [reflexivity|]. cbn [flat_map]. rewrite IH0. f_equal. unfold idx. destruct (s * nc + q <? t) eqn:E1; destruct (q <? t - s * nc) eqn:E2; try reflexivity; [apply Nat.ltb_lt in E1; apply Nat.ltb_ge in E2; lia|apply Nat.ltb_ge in E1; apply Nat.ltb_lt in E2; lia]. }
      apply G.
    - rewrite (One cells (fun q => ce src s q) (t - s * nc) 0); [rewrite Nat.sub_0_r; reflexivity|]. intros j c Hj. rewrite Nat.add_0_l. unfold ce, cell_of. rewrite E, Hj. reflexivity. }
  rewrite <- Hl. rewrite (Many src 0) by (intros i h cells Hi; exact Hi). rewrite Nat.mul_0_l, Nat.sub_0_r. reflexivity.
Qed.

Section Table.
Variables (nr nc : nat) (r : nat -> nat -> region) (src : list (Q * list (wcell ditem * bool))).
Definition plain : list (Q * list (wcell ditem)) := map (fun row => (fst row, map fst (snd row))) src.
Hypothesis Part : TableSpec.partition nr nc r.
Hypothesis Fits : fits_regions nr nc r plain.
Hypothesis Heights : forall h cells, In (h, cells) src -> (0 <= h)%Q.
Let st t := state dnewp nr nc r plain t.
Lemma plain_at i h cells : nth_error src i = Some (h, cells) -> nth_error plain i = Some (h, map fst cells).
Proof. intros E. unfold plain. apply (map_nth_error (fun row => (fst row, map fst (snd row)))) in E. exact E. Qed.
Lemma row_tried i h cells : nth_error src i = Some (h, cells) -> forall n j, j + n = nc ->
  row_try nc i j n (skipn j cells) (st (idx nc i j)) = (st (idx nc i j + List.length (fst (until (skipn j cells)))), snd (until (skipn j cells))).
Proof.
  intros E. pose proof (plain_at i h cells E) as Ep. destruct Fits as (Hl & Hf). destruct (Hf i h _ Ep) as (Hc & _). rewrite map_length in Hc.
  assert (Hi : i < nr) by (rewrite <- Hl; apply nth_error_Some; congruence).
  induction n as [|n IH]; intros j Hj.
  - cbn [row_try]. rewrite skipn_all2 by lia. cbn. rewrite Nat.add_0_r. reflexivity.
  - destruct (nth_error cells j) as [[c ok]|] eqn:Ec; [|apply nth_error_None in Ec; lia].
    assert (Es : skipn j cells = (c, ok) :: skipn (S j) cells).
    { clear -Ec. revert j Ec. induction cells as [|x l IH]; intros [|j] Ec; try discriminate; cbn in Ec; [injection Ec as ->; reflexivity|]. cbn [skipn]. apply IH, Ec. }
    rewrite Es. cbn [row_try until]. assert (Ece : c = ce plain i j).
    { unfold ce, cell_of. rewrite Ep. rewrite (map_nth_error fst _ _ Ec). reflexivity. }
    pose proof (step dnewp dnoruns eq_refl nr nc r plain Part Fits i j Hi ltac:(lia)) as St. rewrite <- Ece in St. unfold st at 1. rewrite St. destruct ok.
    + replace (S (idx nc i j)) with (idx nc i (S j)) by (unfold idx; lia). fold (st (idx nc i (S j))). rewrite IH by lia. destruct (until (skipn (S j) cells)) as [l o]. cbn [fst snd List.length]. f_equal. f_equal. unfold idx. lia.
    + cbn [fst snd List.length]. unfold st. f_equal. f_equal. lia.
Qed.
Lemma rows_tried : forall l i pre, src = pre ++ l -> List.length pre = i ->
  exists hs rest, rows_try nc i l (st (idx nc i 0)) = (hs, st (idx nc i 0 + List.length (fst (until (concat (map snd l))))), snd (until (concat (map snd l)))) /\
    map (fun row => pt (fst row)) l = hs ++ rest /\ (snd (until (concat (map snd l))) = true -> rest = []).
Proof.
  induction l as [|[h cells] l IH]; intros i pre E Hp.
  - exists [], []. cbn. rewrite Nat.add_0_r. auto.
  - cbn [rows_try]. rewrite pt_nonneg. 2:{ apply (Heights h cells). rewrite E. apply in_or_app. right. left. reflexivity. }
    assert (En : nth_error src i = Some (h, cells)) by (rewrite E, nth_error_app2, Hp, Nat.sub_diag by lia; reflexivity).
    pose proof (row_tried i h cells En nc 0 eq_refl) as R. cbn [skipn] in R. rewrite R. cbn [map concat snd]. rewrite until_app.
    pose proof (plain_at i h cells En) as Ep. destruct Fits as (Hl & Hf). destruct (Hf i h _ Ep) as (Hc & _). rewrite map_length in Hc.
    destruct (snd (until cells)) eqn:Eo.
    + destruct (until_true _ Eo) as (Et & _). assert (Ln : List.length (fst (until cells)) = nc) by (rewrite Et, map_length; exact Hc).
      rewrite Ln. replace (idx nc i 0 + nc) with (idx nc (S i) 0) by (unfold idx; cbn; lia).
      destruct (IH (S i) (pre ++ [(h, cells)])) as (hs & rest & E1 & E2 & E3); [rewrite E, <- app_assoc; reflexivity|rewrite app_length, Hp; cbn; lia|].
      rewrite E1. exists (pt h :: hs), rest. cbn [fst snd map app]. rewrite app_length, Ln, E2. split; [replace (idx nc i 0 + (nc + List.length (fst (until (concat (map snd l)))))) with (idx nc (S i) 0 + List.length (fst (until (concat (map snd l))))) by (unfold idx; rewrite Nat.mul_succ_l; lia); reflexivity|]. split; [reflexivity|exact E3].
    + exists [pt h], (map (fun row => pt (fst row)) l). rewrite Eo. split; [reflexivity|]. split; [reflexivity|discriminate].
Qed.
Lemma table_tried : 0 < nr -> exists hs rest, table_try nc src = (hs, st (List.length (fst (until (concat (map snd src))))), snd (until (concat (map snd src)))) /\
  map (fun row => pt (fst row)) src = hs ++ rest /\ (snd (until (concat (map snd src))) = true -> rest = []).
Proof.
  intros Hn. unfold table_try. assert (Hl : List.length src = nr) by (destruct Fits as (Hl & _); unfold plain in Hl; rewrite map_length in Hl; exact Hl).
  rewrite Hl, <- (fresh_grid dnewp nr nc r plain). destruct (rows_tried src 0 [] eq_refl eq_refl) as (hs & rest & E1 & E2 & E3). exists hs, rest. split; [exact E1|]. split; assumption.
Qed.
End Table.
