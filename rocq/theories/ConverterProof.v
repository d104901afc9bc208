(** Proofs about ConverterModel. *)
From Verif Require Import PyBase PyBaseProof ConverterModel ConverterSpec.
From Coq Require Import Ascii.
Open Scope Z_scope.

(* ------------------------------------------------------------------ *)
(** * Selection *)
Lemma filter_subseq {A} (f : A -> bool) l : Subseq (filter f l) l.
Proof.
  induction l as [|x t IH]; cbn; [constructor|].
  destruct (f x); constructor; exact IH.
Qed.

Lemma count_filter (f : Z -> bool) l x :
  count_occ Z.eq_dec (filter f l) x = if f x then count_occ Z.eq_dec l x else O.
Proof.
  induction l as [|y t IH]; cbn; [destruct (f x); reflexivity|].
  destruct (f y) eqn:Ey; cbn [count_occ]; destruct (Z.eq_dec y x) as [->|Hne]; rewrite ?IH.
  - rewrite Ey. reflexivity.
  - reflexivity.
  - rewrite Ey. reflexivity.
  - reflexivity.
Qed.

Lemma explicit_pages_selected start end_ ps n x :
  ps <> [] ->
  Subseq (page_indexes start end_ ps n) ps /\
  count_occ Z.eq_dec (page_indexes start end_ ps n) x =
    (if (0 <=? x) && (x <? n) then count_occ Z.eq_dec ps x else O).
Proof.
  intros H. unfold page_indexes. destruct ps as [|p t]; [congruence|].
  split; [apply filter_subseq | apply (count_filter (fun x => (0 <=? x) && (x <? n)))].
Qed.

Lemma increasing_zrange a b : Increasing (zrange a b).
Proof.
  remember (Z.to_nat (b - a)) as m eqn:E. revert a E.
  induction m as [|m IH]; intros a E.
  - rewrite zrange_empty by lia. constructor.
  - rewrite zrange_cons by lia. specialize (IH (a + 1) ltac:(lia)).
    rewrite zrange_cons_inv in *. destruct (a + 1 <? b) eqn:E2; [|constructor].
    constructor; [lia|exact IH].
Qed.

Lemma slice_start_in n v i : 0 <= i < n -> (slice_start n (Some v) 1 <= i <-> user_bound n v <= i).
Proof.
  intros Hi. unfold slice_start, adjust_bound, user_bound. cbn [Z.ltb Z.compare].
  change (1 <? 0) with false. cbv iota.
  destruct (v <? 0) eqn:E1; [destruct (v + n <? 0) eqn:E2 | destruct (n <=? v) eqn:E3]; lia.
Qed.
Lemma slice_stop_in n v i : 0 <= i < n -> (i < slice_stop n (Some v) 1 <-> i < user_bound n v).
Proof.
  intros Hi. unfold slice_stop, adjust_bound, user_bound.
  change (1 <? 0) with false. cbv iota.
  destruct (v <? 0) eqn:E1; [destruct (v + n <? 0) eqn:E2 | destruct (n <=? v) eqn:E3]; lia.
Qed.

Lemma slice_range_bounds n a b : 0 <= n ->
  0 <= slice_start n (Some a) 1 /\ slice_stop n (Some b) 1 <= n.
Proof.
  intros Hn. unfold slice_start, slice_stop. change (1 <? 0) with false. cbv iota.
  pose proof (adjust_bound_pos n a Hn). pose proof (adjust_bound_pos n b Hn). lia.
Qed.

Lemma range_selected_gen start e n :
  0 <= n ->
  Increasing (py_slice (zrange 0 n) (Some start) (Some e) 1) /\
  forall i, In i (py_slice (zrange 0 n) (Some start) (Some e) 1) <->
     0 <= i < n /\ user_bound n start <= i < user_bound n e.
Proof.
  intros Hn. rewrite py_slice_zrange by exact Hn. split; [apply increasing_zrange|].
  intros i. rewrite in_zrange. pose proof (slice_range_bounds n start e Hn) as [Hb1 Hb2].
  split.
  - intros H. assert (Hi : 0 <= i < n) by lia.
    rewrite <- (slice_start_in n start i Hi), <- (slice_stop_in n e i Hi). lia.
  - intros [Hi H]. rewrite <- (slice_start_in n start i Hi), <- (slice_stop_in n e i Hi) in H. lia.
Qed.

Lemma range_selected start end_ n :
  0 <= n -> end_ <> Some 0 ->
  Increasing (page_indexes start end_ [] n) /\
  forall i, In i (page_indexes start end_ [] n) <->
     0 <= i < n /\ user_bound n start <= i /\
     match end_ with None => True | Some e => i < user_bound n e end.
Proof.
  intros Hn He. unfold page_indexes. destruct end_ as [e|].
  - destruct (e =? 0) eqn:E0; [exfalso; apply He; f_equal; lia|].
    pose proof (range_selected_gen start e n Hn) as [H1 H2]. split; [exact H1|].
    intros i. rewrite H2. tauto.
  - pose proof (range_selected_gen start n n Hn) as [H1 H2]. split; [exact H1|].
    intros i. rewrite H2. assert (user_bound n n = n) as ->.
    { unfold user_bound. destruct (n <? 0) eqn:E; lia. }
    split; [intros H; repeat split; lia | intros H; repeat split; lia].
Qed.

Lemma end_zero_selects_rest start n :
  0 <= n ->
  page_indexes start (Some 0) [] n = page_indexes start None [] n.
Proof. intros _. reflexivity. Qed.

Lemma zrange_pos_len a b : zlen (zrange a b) = Z.max 0 (b - a).
Proof. unfold zlen. rewrite zrange_length. lia. Qed.

(** The 1-based interface. *)
Lemma cli_explicit start end_ ps n x :
  ps <> [] ->
  Subseq (map (fun i => i + 1) (cli_page_indexes false start end_ ps n)) ps /\
  count_occ Z.eq_dec (map (fun i => i + 1) (cli_page_indexes false start end_ ps n)) x =
    (if (1 <=? x) && (x <=? n) then count_occ Z.eq_dec ps x else O).
Proof.
  intros H. unfold cli_page_indexes, cli_args. destruct ps as [|p t]; [congruence|]. clear H.
  unfold page_indexes. cbn [map]. set (l := p :: t).
  change (p - 1 :: map (fun i => i - 1) t) with (map (fun i => i - 1) l). generalize l. clear. intros l.
  assert (E : map (fun i => i + 1) (filter (fun x => (0 <=? x) && (x <? n)) (map (fun i => i - 1) l))
     = filter (fun x => (1 <=? x) && (x <=? n)) l).
  { induction l as [|a t IH]; cbn; [reflexivity|].
    destruct ((0 <=? a - 1) && (a - 1 <? n)) eqn:E1;
    destruct ((1 <=? a) && (a <=? n)) eqn:E2; try lia; cbn; rewrite IH; [f_equal; lia|reflexivity]. }
  rewrite E. split; [apply filter_subseq | apply (count_filter (fun x => (1 <=? x) && (x <=? n)))].
Qed.

Lemma cli_range start end_ n :
  0 <= n -> 1 <= start -> match end_ with None => True | Some e => 2 <= e end ->
  Increasing (cli_page_indexes false start end_ [] n) /\
  forall i, In i (map (fun i => i + 1) (cli_page_indexes false start end_ [] n)) <->
    1 <= i <= n /\ start <= i /\ match end_ with None => True | Some e => i < e end.
Proof.
  intros Hn Hs He. unfold cli_page_indexes, cli_args.
  set (e' := match end_ with None => None | Some v => if v =? 0 then Some v else Some (v - 1) end).
  assert (He' : e' <> Some 0).
  { unfold e'. destruct end_ as [v|]; [|discriminate].
    destruct (v =? 0) eqn:E; [lia|]. intros H. injection H. lia. }
  pose proof (range_selected (Z.max (start - 1) 0) e' n Hn He') as [H1 H2].
  split; [exact H1|]. intros i. rewrite in_map_iff.
  assert (Hb : user_bound n (Z.max (start - 1) 0) = start - 1).
  { unfold user_bound. destruct (Z.max (start - 1) 0 <? 0) eqn:E; lia. }
  split.
  - intros (j & <- & Hj). rewrite H2 in Hj. destruct Hj as (Hj1 & Hj2 & Hj3).
    split; [lia|split; [lia|]]. destruct end_ as [v|]; [|exact I].
    unfold e' in Hj3. destruct (v =? 0) eqn:E; [lia|].
    unfold user_bound in Hj3. destruct (v - 1 <? 0) eqn:E3; lia.
  - intros (Hi & Hsi & Hei). exists (i - 1). split; [lia|]. rewrite H2. split; [lia|split; [lia|]].
    destruct end_ as [v|]; unfold e'; [|exact I].
    destruct (v =? 0) eqn:E; [lia|].
    unfold user_bound. destruct (v - 1 <? 0) eqn:E3; lia.
Qed.

Lemma cli_end_one start n : cli_page_indexes false start (Some 1) [] n = cli_page_indexes false start None [] n.
Proof. reflexivity. Qed.

Lemma selected_valid start end_ ps n i : 0 <= n -> In i (page_indexes start end_ ps n) -> 0 <= i < n.
Proof.
  intros Hn. unfold page_indexes. destruct ps as [|p t].
  - rewrite py_slice_zrange by exact Hn. rewrite in_zrange.
    pose proof (slice_range_bounds n start (match end_ with Some v => if v =? 0 then n else v | None => n end) Hn).
    lia.
  - intros H. apply filter_In in H. lia.
Qed.

(* ------------------------------------------------------------------ *)
(** * Parsing *)
Section Pages.
Context {C : Type}.
Notation page := (page C).
Implicit Types st : list page.

Lemma parse_one_length st idx o : length (parse_one st idx o) = length st.
Proof. unfold parse_one. destruct (norm_index _ _); [apply update_length|reflexivity]. Qed.

Lemma parse_loop_length orc i ix st : length (parse_loop orc i ix st) = length st.
Proof.
  revert i st. induction ix as [|x t IH]; intros i st; cbn; [reflexivity|].
  rewrite IH. apply parse_one_length.
Qed.
Lemma parse_length orc ix st : length (parse orc ix st) = length st.
Proof. apply parse_loop_length. Qed.

(** Outcomes addressed to page [k]. *)
Fixpoint outcomes_for (n : Z) (k : nat) (orc : nat -> Z -> outcome C) (i : nat) (ix : list Z) : list (outcome C) :=
  match ix with
  | [] => []
  | idx :: t =>
      match norm_index n idx with
      | Some k' => if Nat.eqb k' k then [orc i idx] else []
      | None => []
      end ++ outcomes_for n k orc (S i) t
  end.

Lemma parse_loop_at orc ix : forall i st k,
  nth_error (parse_loop orc i ix st) k =
  option_map (fun pg => fold_left (fun p o => page_parse k o p) (outcomes_for (zlen st) k orc i ix) pg)
             (nth_error st k).
Proof.
  induction ix as [|x t IH]; intros i st k; cbn [parse_loop outcomes_for].
  - cbn. destruct (nth_error st k); reflexivity.
  - rewrite IH. unfold zlen at 1. rewrite parse_one_length. fold (zlen st).
    unfold parse_one. destruct (norm_index (zlen st) x) as [k'|] eqn:E.
    + destruct (Nat.eqb_spec k' k) as [->|Hne].
      * rewrite nth_error_update_eq. destruct (nth_error st k); cbn; reflexivity.
      * rewrite nth_error_update_ne by congruence. reflexivity.
    + reflexivity.
Qed.

Lemma outcomes_for_ext n k orc1 orc2 : forall ix i,
  (forall i idx, norm_index n idx = Some k -> orc1 i idx = orc2 i idx) ->
  outcomes_for n k orc1 i ix = outcomes_for n k orc2 i ix.
Proof.
  induction ix as [|x t IH]; intros i H; cbn; [reflexivity|].
  rewrite (IH (S i) H). destruct (norm_index n x) as [k'|] eqn:E; [|reflexivity].
  destruct (Nat.eqb_spec k' k) as [->|Hne]; [|reflexivity].
  rewrite (H i x E). reflexivity.
Qed.

Lemma parse_isolated orc1 orc2 ix st k :
  (forall i idx, norm_index (zlen st) idx = Some k -> orc1 i idx = orc2 i idx) ->
  nth_error (parse orc1 ix st) k = nth_error (parse orc2 ix st) k.
Proof.
  intros H. unfold parse. rewrite !parse_loop_at.
  rewrite (outcomes_for_ext _ _ _ _ _ _ H). reflexivity.
Qed.

Lemma outcomes_for_none n k orc : forall ix i,
  (forall idx, In idx ix -> norm_index n idx <> Some k) ->
  outcomes_for n k orc i ix = [].
Proof.
  induction ix as [|x t IH]; intros i H; cbn; [reflexivity|].
  rewrite IH by (intros y Hy; apply H; right; exact Hy).
  destruct (norm_index n x) as [k'|] eqn:E; [|reflexivity].
  destruct (Nat.eqb_spec k' k) as [->|Hne]; [|reflexivity].
  exfalso. apply (H x); [left; reflexivity|exact E].
Qed.

Lemma parse_unselected orc ix st k :
  ix <> [] -> (forall idx, In idx ix -> norm_index (zlen st) idx <> Some k) ->
  nth_error (parse orc ix st) k = nth_error st k.
Proof.
  intros Hne H. unfold parse, parse_indexes. destruct ix as [|x t]; [congruence|].
  rewrite parse_loop_at, outcomes_for_none by exact H. cbn. destruct (nth_error st k); reflexivity.
Qed.

(** Position-independent parser: dropping another page changes nothing. *)
Lemma outcomes_for_pos_indep n k (orc : Z -> outcome C) : forall ix i j,
  outcomes_for n k (fun _ => orc) i ix = outcomes_for n k (fun _ => orc) j ix.
Proof. induction ix as [|x t IH]; intros i j; cbn; [reflexivity|]. f_equal. apply IH. Qed.

Lemma outcomes_for_filter n k (orc : Z -> outcome C) (keep : Z -> bool) : forall ix i,
  (forall idx, norm_index n idx = Some k -> keep idx = true) ->
  outcomes_for n k (fun _ => orc) i (filter keep ix) = outcomes_for n k (fun _ => orc) i ix.
Proof.
  induction ix as [|x t IH]; intros i H; cbn; [reflexivity|].
  destruct (keep x) eqn:E; cbn [outcomes_for].
  - f_equal. rewrite IH by exact H. reflexivity.
  - rewrite IH by exact H. destruct (norm_index n x) as [k'|] eqn:E2.
    + destruct (Nat.eqb_spec k' k) as [->|Hne].
      * rewrite (H x E2) in E. discriminate.
      * cbn. apply outcomes_for_pos_indep.
    + cbn. apply outcomes_for_pos_indep.
Qed.

Lemma parse_drop_other (orc : Z -> outcome C) ix st (keep : Z -> bool) k :
  ix <> [] -> filter keep ix <> [] ->
  (forall idx, norm_index (zlen st) idx = Some k -> keep idx = true) ->
  nth_error (parse (fun _ => orc) (filter keep ix) st) k = nth_error (parse (fun _ => orc) ix st) k.
Proof.
  intros H1 H2 H3. unfold parse, parse_indexes.
  destruct (filter keep ix) as [|a l] eqn:E; [congruence|]. rewrite <- E.
  destruct ix as [|b l']; [congruence|].
  rewrite !parse_loop_at. rewrite outcomes_for_filter by exact H3. reflexivity.
Qed.

(* ---- fresh pages with a deterministic parser ---- *)
Definition after (orc : Z -> outcome C) (k : nat) (pg : page) : page := page_parse k (orc (Z.of_nat k)) pg.

Lemma page_parse_fresh_idem (o : outcome C) k c0 m : (0 < m)%nat ->
  fold_left (fun p o => page_parse k o p) (repeat o m) (mkPage (-1) false c0)
  = page_parse k o (mkPage (-1) false c0).
Proof.
  intros H. destruct m as [|m]; [lia|]. clear H. cbn [repeat fold_left].
  induction m as [|m IH]; [reflexivity|].
  cbn [repeat fold_left]. rewrite <- IH at 2. f_equal. destruct o; reflexivity.
Qed.

Lemma outcomes_for_valid n k (orc : Z -> outcome C) : forall ix i,
  (forall idx, In idx ix -> 0 <= idx < n) ->
  outcomes_for n k (fun _ => orc) i ix =
  repeat (orc (Z.of_nat k)) (count_occ Z.eq_dec ix (Z.of_nat k)).
Proof.
  induction ix as [|x t IH]; intros i H; cbn [outcomes_for count_occ]; [reflexivity|].
  rewrite IH by (intros y Hy; apply H; right; exact Hy).
  rewrite norm_index_in by (apply H; left; reflexivity).
  assert (0 <= x < n) by (apply H; left; reflexivity).
  destruct (Z.eq_dec x (Z.of_nat k)) as [->|Hne].
  - rewrite Nat2Z.id, Nat.eqb_refl. reflexivity.
  - destruct (Nat.eqb_spec (Z.to_nat x) k) as [E|E]; [lia|]. reflexivity.
Qed.

Lemma nth_error_fresh n (c0 : C) k : nth_error (fresh n c0) k = if (k <? n)%nat then Some (mkPage (-1) false c0) else None.
Proof.
  unfold fresh. destruct (Nat.ltb_spec k n) as [H|H].
  - apply nth_error_repeat. exact H.
  - apply nth_error_None. rewrite repeat_length. lia.
Qed.
Lemma zlen_fresh n (c0 : C) : zlen (fresh n c0) = Z.of_nat n.
Proof. unfold zlen, fresh. rewrite repeat_length. reflexivity. Qed.

(** Page [k] after parsing a valid selection on a fresh converter. *)
Lemma parse_fresh_at (orc : Z -> outcome C) ix n c0 k :
  (forall idx, In idx ix -> 0 <= idx < Z.of_nat n) ->
  (k < n)%nat ->
  nth_error (parse (fun _ => orc) ix (fresh n c0)) k =
  Some (if (match ix with [] => true | _ => false end) || (if in_dec Z.eq_dec (Z.of_nat k) ix then true else false)
        then page_parse k (orc (Z.of_nat k)) (mkPage (-1) false c0)
        else mkPage (-1) false c0).
Proof.
  intros Hv Hk. unfold parse. rewrite parse_loop_at. rewrite nth_error_fresh.
  replace (k <? n)%nat with true by (symmetry; apply Nat.ltb_lt; exact Hk). cbn [option_map].
  f_equal. rewrite zlen_fresh.
  destruct ix as [|x t]; unfold parse_indexes.
  - rewrite outcomes_for_valid by (intros idx H; apply in_zrange in H; lia).
    cbn [orb]. apply page_parse_fresh_idem.
    apply (count_occ_In Z.eq_dec). apply in_zrange. lia.
  - rewrite outcomes_for_valid by exact Hv. cbn [orb].
    destruct (in_dec Z.eq_dec (Z.of_nat k) (x :: t)) as [Hin|Hnin].
    + apply page_parse_fresh_idem. apply (count_occ_In Z.eq_dec). exact Hin.
    + rewrite (proj1 (count_occ_not_In Z.eq_dec _ _) Hnin). reflexivity.
Qed.

(** Filtering a list through positions. *)
Lemma filter_positions {A} (f : A -> bool) (l : list A) (d : A) :
  filter f l = map (fun k => nth k l d) (filter (fun k => f (nth k l d)) (seq 0 (length l))).
Proof.
  assert (G : forall l pre, filter f l =
     map (fun k => nth k (pre ++ l) d) (filter (fun k => f (nth k (pre ++ l) d)) (seq (length pre) (length l)))).
  { clear l. induction l as [|x t IH]; intros pre; [reflexivity|].
    cbn [filter length seq].
    assert (E : nth (length pre) (pre ++ x :: t) d = x).
    { rewrite app_nth2 by lia. rewrite Nat.sub_diag. reflexivity. }
    rewrite E. specialize (IH (pre ++ [x])). rewrite <- app_assoc in IH. cbn [app] in IH.
    rewrite app_length in IH. cbn [length] in IH. rewrite Nat.add_1_r in IH.
    destruct (f x); cbn [map]; rewrite ?E, IH; reflexivity. }
  apply (G l []).
Qed.

Lemma filter_map_seq_Z (g : Z -> bool) n :
  map Z.of_nat (filter (fun k => g (Z.of_nat k)) (seq 0 n)) = filter g (zrange 0 (Z.of_nat n)).
Proof.
  unfold zrange. replace (Z.to_nat (Z.of_nat n - 0)) with n by lia.
  generalize (seq 0 n). induction l as [|x t IH]; cbn [filter map]; [reflexivity|].
  replace (0 + Z.of_nat x) with (Z.of_nat x) by lia.
  destruct (g (Z.of_nat x)); cbn [map]; rewrite IH; reflexivity.
Qed.

(** The pages finished after a fresh parse. *)
Definition selected_ok (orc : Z -> outcome C) (ix : list Z) (i : Z) : bool :=
  ((match ix with [] => true | _ => false end) || (if in_dec Z.eq_dec i ix then true else false))
  && succeeded (orc i).

Lemma parse_fresh_final (orc : Z -> outcome C) ix n c0 :
  (forall idx, In idx ix -> 0 <= idx < Z.of_nat n) ->
  map (fun pg => (p_id pg, p_content pg)) (filter p_final (parse (fun _ => orc) ix (fresh n c0))) =
  map (fun i => (i, match orc i with Done c => c | _ => c0 end))
      (filter (selected_ok orc ix) (zrange 0 (Z.of_nat n))).
Proof.
  intros Hv. set (st := parse (fun _ => orc) ix (fresh n c0)).
  rewrite (filter_positions p_final st (mkPage (-1) false c0)).
  assert (Hlen : length st = n).
  { unfold st. rewrite parse_length. unfold fresh. apply repeat_length. }
  rewrite Hlen. rewrite <- filter_map_seq_Z. rewrite !map_map.
  assert (Hat : forall k, (k < n)%nat -> nth k st (mkPage (-1) false c0) =
     (if (match ix with [] => true | _ => false end) || (if in_dec Z.eq_dec (Z.of_nat k) ix then true else false)
        then page_parse k (orc (Z.of_nat k)) (mkPage (-1) false c0)
        else mkPage (-1) false c0)).
  { intros k Hk. apply nth_error_nth. apply parse_fresh_at; assumption. }
  assert (Hf : filter (fun k => p_final (nth k st (mkPage (-1) false c0))) (seq 0 n) =
               filter (fun k => selected_ok orc ix (Z.of_nat k)) (seq 0 n)).
  { apply filter_ext_in. intros k Hk. apply in_seq in Hk. rewrite Hat by lia.
    unfold selected_ok. destruct (_ || _); cbn [andb p_final]; [|reflexivity].
    destruct (orc (Z.of_nat k)); reflexivity. }
  rewrite Hf. apply map_ext_in. intros k Hk. apply filter_In in Hk. destruct Hk as [Hk Hs].
  apply in_seq in Hk. rewrite Hat by lia. unfold selected_ok in Hs.
  destruct (_ || _); cbn [andb] in Hs; [|discriminate].
  destruct (orc (Z.of_nat k)); cbn in Hs; try discriminate. reflexivity.
Qed.

Lemma convert_fresh_doc start end_ ps (orc : Z -> outcome C) emit n c0 :
  let sel := page_indexes start end_ ps (Z.of_nat n) in
  let good := filter (selected_ok orc sel) (zrange 0 (Z.of_nat n)) in
  match snd (step (fresh n c0) (OpConvert start end_ ps (fun _ => orc) emit)) with
  | RDoc d => good <> [] /\
      map (fun p => (d_id p, d_content p)) d =
      map (fun i => (i, match orc i with Done c => c | _ => c0 end)) good
  | RRaise => good = []
  | _ => False
  end.
Proof.
  intros sel good. cbn [step snd]. rewrite zlen_fresh. fold sel.
  assert (Hv : forall idx, In idx sel -> 0 <= idx < Z.of_nat n).
  { intros idx H. eapply selected_valid; [|exact H]. lia. }
  pose proof (parse_fresh_final orc sel n c0 Hv) as Hp. fold good in Hp.
  unfold build_docx. destruct (filter p_final (parse (fun _ => orc) sel (fresh n c0))) as [|pg t].
  - symmetry in Hp. apply map_eq_nil in Hp. exact Hp.
  - split.
    + intros E. rewrite E in Hp. discriminate.
    + rewrite <- Hp. rewrite map_map. reflexivity.
Qed.

(* ------------------------------------------------------------------ *)
(** * Histories *)
Lemma restore_length data : forall st, length (fst (restore data st)) = length st.
Proof.
  induction data as [|s t IH]; intros st; cbn [restore]; [reflexivity|].
  destruct (norm_index _ _) as [k|]; [|reflexivity].
  destruct (s_ok _ s); [rewrite IH|cbn]; apply update_length.
Qed.

Lemma step_length st o : length (fst (step st o)) = length st.
Proof.
  destruct o; cbn [step fst]; try apply parse_length; try reflexivity.
  pose proof (restore_length data st). destruct (restore data st). exact H.
Qed.

Lemma finished_app e b : finished (e ++ b) = 
  match e with [] => finished b | ESuccess :: _ => true | EBroken :: _ => false | ENoEffect :: t => finished (t ++ b) end.
Proof. destruct e as [|[| |] t]; reflexivity. Qed.

(** Effect of a list of events on a flag. *)
Definition apply_events (b : bool) (l : list event) : bool :=
  fold_left (fun b e => match e with ESuccess => true | EBroken => false | ENoEffect => b end) l b.

Lemma apply_events_finished l : apply_events false l = finished (rev l).
Proof.
  induction l as [|e t IH] using rev_ind; [reflexivity|].
  unfold apply_events in *. rewrite fold_left_app, rev_app_distr. cbn.
  destruct e; [reflexivity|reflexivity|exact IH].
Qed.

Lemma fold_page_parse_final k os : forall pg : page,
  p_final (fold_left (fun p o => page_parse k o p) os pg) =
  apply_events (p_final pg) (map event_of os).
Proof.
  induction os as [|o t IH]; intros pg; cbn; [reflexivity|].
  rewrite IH. unfold apply_events. destruct o; reflexivity.
Qed.

Lemma map_event_of_outcomes n k orc : forall ix i,
  map event_of (outcomes_for n k orc i ix) = parse_events n k orc i ix.
Proof.
  induction ix as [|x t IH]; intros i; cbn; [reflexivity|].
  rewrite map_app, IH. destruct (norm_index n x) as [k'|]; [|reflexivity].
  destruct (Nat.eqb k' k); reflexivity.
Qed.

Lemma parse_finished_at orc ix st k : (k < length st)%nat ->
  finished_at (parse orc ix st) k =
  apply_events (finished_at st k) (parse_events (zlen st) k orc 0 (parse_indexes (zlen st) ix)).
Proof.
  intros Hk. unfold finished_at, parse. rewrite parse_loop_at.
  destruct (nth_error st k) as [pg|] eqn:E.
  - cbn [option_map]. rewrite fold_page_parse_final, map_event_of_outcomes. reflexivity.
  - apply nth_error_None in E. lia.
Qed.

Lemma restore_finished_at data : forall st k, (k < length st)%nat ->
  finished_at (fst (restore data st)) k = apply_events (finished_at st k) (restore_events (zlen st) k data).
Proof.
  induction data as [|s t IH]; intros st k Hk; cbn [restore restore_events]; [reflexivity|].
  destruct (norm_index _ _) as [k'|] eqn:E; [|reflexivity].
  assert (Hz : zlen (update k' (page_restore C s) st) = zlen st) by (unfold zlen; rewrite update_length; reflexivity).
  assert (Hf : finished_at (update k' (page_restore C s) st) k =
    if Nat.eqb k' k then (if s_ok _ s then true else finished_at st k) else finished_at st k).
  { unfold finished_at. destruct (Nat.eqb_spec k' k) as [->|Hne].
    - rewrite nth_error_update_eq. destruct (nth_error st k) eqn:En; [reflexivity|].
      apply nth_error_None in En. lia.
    - rewrite nth_error_update_ne by congruence. reflexivity. }
  destruct (s_ok _ s).
  - rewrite IH by (rewrite update_length; exact Hk). rewrite Hz, Hf.
    destruct (Nat.eqb k' k); reflexivity.
  - cbn [fst]. rewrite Hf. destruct (Nat.eqb k' k); reflexivity.
Qed.

Lemma step_finished_at st o k : (k < length st)%nat ->
  finished_at (fst (step st o)) k = apply_events (finished_at st k) (op_events (zlen st) k o).
Proof.
  intros Hk. destruct o; cbn [step fst op_events]; try (apply parse_finished_at; exact Hk); try reflexivity.
  rewrite <- restore_finished_at by exact Hk. destruct (restore data st); reflexivity.
Qed.

Lemma run_length ops : forall st, length (run st ops) = length st.
Proof.
  induction ops as [|o t IH]; intros st; cbn; [reflexivity|].
  unfold run in IH. rewrite IH. apply step_length.
Qed.

Lemma run_finished_at ops : forall st k, (k < length st)%nat ->
  finished_at (run st ops) k = apply_events (finished_at st k) (history_events (zlen st) k ops).
Proof.
  induction ops as [|o t IH]; intros st k Hk; cbn [run fold_left history_events flat_map]; [reflexivity|].
  fold (run (fst (step st o)) t). rewrite IH by (rewrite step_length; exact Hk).
  rewrite step_finished_at by exact Hk.
  assert (Hz : zlen (fst (step st o)) = zlen st) by (unfold zlen; rewrite step_length; reflexivity).
  rewrite Hz. unfold apply_events. rewrite <- fold_left_app. reflexivity.
Qed.

Lemma history_finished n (c0 : C) ops k : (k < n)%nat ->
  finished_at (run (fresh n c0) ops) k = finished (rev (history_events (Z.of_nat n) k ops)).
Proof.
  intros Hk. rewrite run_finished_at.
  - rewrite zlen_fresh. unfold finished_at. rewrite nth_error_fresh.
    replace (k <? n)%nat with true by (symmetry; apply Nat.ltb_lt; exact Hk).
    apply apply_events_finished.
  - unfold fresh. rewrite repeat_length. exact Hk.
Qed.

(** What [make_docx] writes after a history. *)
(** Writing page [k] fails or succeeds on its own. *)
Lemma write_isolated st emit doc : snd (step st (OpMakeDocx emit)) = RDoc doc ->
  map (fun p => (d_id p, d_content p, d_complete p)) doc =
  map (fun pg => (p_id pg, p_content pg, emit pg)) (filter p_final st).
Proof.
  cbn [step snd]. unfold build_docx. destruct (filter p_final st) as [|q t]; intros H; [discriminate|].
  injection H as <-. cbn [map d_id d_content d_complete]. rewrite map_map. reflexivity.
Qed.

Lemma extract_contents st start end_ ps orc (d : C) :
  let st' := fst (step st (OpExtract start end_ ps orc)) in
  snd (step st (OpExtract start end_ ps orc)) =
    RTables (map (content_at d st') (filter (finished_at st') (seq 0 (length st')))).
Proof.
  cbn [step fst snd]. set (st' := parse orc _ st). clearbody st'. f_equal.
  assert (G : forall pre l, map p_content (filter p_final l) =
     map (content_at d (pre ++ l)) (filter (finished_at (pre ++ l)) (seq (length pre) (length l)))).
  { clear. intros pre l. revert pre. induction l as [|x t IH]; intros pre; [reflexivity|].
    cbn [length seq filter].
    assert (E : nth_error (pre ++ x :: t) (length pre) = Some x).
    { rewrite nth_error_app2 by lia. rewrite Nat.sub_diag. reflexivity. }
    unfold finished_at at 1. rewrite E. specialize (IH (pre ++ [x])).
    rewrite <- app_assoc in IH. cbn [app] in IH. rewrite app_length in IH. cbn [length] in IH.
    rewrite Nat.add_1_r in IH. destruct (p_final x); cbn [map]; rewrite IH; [|reflexivity].
    f_equal. unfold content_at. rewrite E. reflexivity. }
  exact (G [] st').
Qed.

Lemma make_docx_contents st emit (d : C) :
  match snd (step st (OpMakeDocx emit)) with
  | RDoc doc =>
      (exists k, (k < length st)%nat /\ finished_at st k = true) /\
      map d_content doc = map (content_at d st) (filter (finished_at st) (seq 0 (length st)))
  | RRaise => forall k, (k < length st)%nat -> finished_at st k = false
  | _ => False
  end.
Proof.
  cbn [step snd]. unfold build_docx.
  destruct st as [|p0 st0] eqn:Est.
  { cbn. intros k H. lia. }
  rewrite <- Est in *. clear st0 Est. rename p0 into dp.
  pose proof (filter_positions p_final st dp) as Hp.
  assert (Hnth : forall k, (k < length st)%nat -> nth_error st k = Some (nth k st dp))
    by (intros k Hk; apply nth_error_nth'; exact Hk).
  assert (Hfilt : filter (fun k => p_final (nth k st dp)) (seq 0 (length st)) =
                  filter (finished_at st) (seq 0 (length st))).
  { apply filter_ext_in. intros k Hk. apply in_seq in Hk. unfold finished_at.
    rewrite Hnth by lia. reflexivity. }
  rewrite Hfilt in Hp.
  destruct (filter p_final st) as [|q t] eqn:E.
  - intros k Hk. symmetry in Hp. apply map_eq_nil in Hp.
    destruct (finished_at st k) eqn:Ef; [|reflexivity].
    assert (In k (filter (finished_at st) (seq 0 (length st)))).
    { apply filter_In. split; [apply in_seq; lia|exact Ef]. }
    rewrite Hp in H. destruct H.
  - split.
    + destruct (filter (finished_at st) (seq 0 (length st))) as [|k l] eqn:Ek; [discriminate|].
      exists k. assert (Hin : In k (k :: l)) by (left; reflexivity). rewrite <- Ek in Hin.
      apply filter_In in Hin. destruct Hin as [H1 H2]. apply in_seq in H1. split; [lia|exact H2].
    + rewrite map_map. cbn [d_content]. rewrite Hp. rewrite map_map.
      apply map_ext_in. intros k Hk. apply filter_In in Hk. destruct Hk as [Hk _]. apply in_seq in Hk.
      unfold content_at. rewrite Hnth by lia. reflexivity.
Qed.

(** Read-only operations. *)
Lemma readonly_ops st emit : fst (step st (OpMakeDocx emit)) = st /\ fst (step st OpStore) = st.
Proof. split; reflexivity. Qed.

(* ------------------------------------------------------------------ *)
(** * store / restore *)
Lemma restore_at (data : list (Z * C)) : forall st k,
  (forall d, In d data -> 0 <= fst d < zlen st) ->
  NoDup (map fst data) ->
  nth_error (fst (restore (as_stored data) st)) k =
  match find (fun d => fst d =? Z.of_nat k) data with
  | Some d => option_map (fun _ => mkPage (Z.of_nat k) true (snd d)) (nth_error st k)
  | None => nth_error st k
  end.
Proof.
  induction data as [|d t IH]; intros st k Hv Hnd; [reflexivity|].
  cbn [as_stored map restore s_id s_ok]. fold (as_stored t).
  assert (Hd : 0 <= fst d < zlen st) by (apply Hv; left; reflexivity).
  rewrite norm_index_in by exact Hd.
  inversion Hnd as [|x l Hnin Hnd']; subst.
  rewrite IH.
  2: { intros e He. unfold zlen. rewrite update_length. apply Hv. right. exact He. }
  2: exact Hnd'.
  cbn [find]. destruct (fst d =? Z.of_nat k) eqn:E.
  - assert (Hk : Z.to_nat (fst d) = k) by lia.
    assert (Hf : find (fun d0 => fst d0 =? Z.of_nat k) t = None).
    { destruct (find _ t) as [e|] eqn:Ef; [|reflexivity].
      apply find_some in Ef. destruct Ef as [H1 H2]. exfalso. apply Hnin.
      apply in_map_iff. exists e. split; [lia|exact H1]. }
    rewrite Hf. rewrite <- Hk. rewrite nth_error_update_eq.
    destruct (nth_error st (Z.to_nat (fst d))); cbn; [|reflexivity].
    unfold page_restore. cbn. repeat f_equal. lia.
  - assert (Hk : k <> Z.to_nat (fst d)) by lia.
    rewrite nth_error_update_ne by exact Hk. reflexivity.
Qed.

Lemma store_entries st (H : ids_ok st) : forall d, In d (store st) -> 
  exists k pg, nth_error st k = Some pg /\ p_final pg = true /\ d = (Z.of_nat k, p_content pg).
Proof.
  intros d Hd. unfold store in Hd. apply in_map_iff in Hd. destruct Hd as (pg & <- & Hpg).
  apply filter_In in Hpg. destruct Hpg as [Hin Hf]. apply In_nth_error in Hin. destruct Hin as [k Hk].
  exists k, pg. split; [exact Hk|]. split; [exact Hf|]. rewrite (H k pg Hk Hf). reflexivity.
Qed.

Lemma store_nodup st : ids_ok st -> NoDup (map fst (store st)).
Proof.
  unfold store. rewrite map_map. cbn [fst].
  assert (G : forall st j, (forall k pg, nth_error st k = Some pg -> p_final pg = true -> p_id pg = Z.of_nat (j + k)) ->
     NoDup (map p_id (filter p_final st)) /\ forall x, In x (map p_id (filter p_final st)) -> Z.of_nat j <= x).
  { clear st. induction st as [|pg t IH]; intros j H; cbn [filter].
    - split; [constructor|]. intros x [].
    - destruct (IH (S j)) as [IH1 IH2].
      { intros k q Hk Hf. replace (S j + k)%nat with (j + S k)%nat by lia. apply H; [exact Hk|exact Hf]. }
      destruct (p_final pg) eqn:E.
      + assert (Hid : p_id pg = Z.of_nat j) by (rewrite (H O pg eq_refl E); f_equal; lia).
        cbn [map]. split.
        * constructor; [|exact IH1]. intros Hin. apply IH2 in Hin. lia.
        * intros x [<-|Hin]; [lia|]. apply IH2 in Hin. lia.
      + split; [exact IH1|]. intros x Hin. apply IH2 in Hin. lia. }
  intros H. apply (G st O). intros k pg Hk Hf. apply H; assumption.
Qed.

Lemma store_restore_at st c0 k :
  ids_ok st ->
  nth_error (fst (restore (as_stored (store st)) (fresh (length st) c0))) k =
  option_map (fun pg => if p_final pg then mkPage (Z.of_nat k) true (p_content pg) else mkPage (-1) false c0)
             (nth_error st k).
Proof.
  intros Hid. rewrite restore_at.
  2: { intros d Hd. apply store_entries in Hd; [|exact Hid]. destruct Hd as (j & pg & Hj & _ & ->).
       cbn [fst]. rewrite zlen_fresh. assert (j < length st)%nat by (apply nth_error_Some; congruence). lia. }
  2: { apply store_nodup. exact Hid. }
  rewrite nth_error_fresh.
  destruct (find _ (store st)) as [d|] eqn:Ef.
  - apply find_some in Ef. destruct Ef as [Hin Hd]. apply store_entries in Hin; [|exact Hid].
    destruct Hin as (j & pg & Hj & Hf & ->). cbn [fst] in Hd. assert (j = k) by lia. subst j.
    rewrite Hj. cbn [option_map snd]. rewrite Hf.
    assert (k < length st)%nat by (apply nth_error_Some; congruence).
    replace (k <? length st)%nat with true by (symmetry; apply Nat.ltb_lt; assumption). reflexivity.
  - destruct (nth_error st k) as [pg|] eqn:Ek.
    + cbn [option_map]. assert (k < length st)%nat by (apply nth_error_Some; congruence).
      replace (k <? length st)%nat with true by (symmetry; apply Nat.ltb_lt; assumption).
      destruct (p_final pg) eqn:Efin; [|reflexivity].
      exfalso. pose proof (find_none _ _ Ef (p_id pg, p_content pg)) as Hn. cbn [fst] in Hn.
      rewrite (Hid k pg Ek Efin) in Hn. rewrite Z.eqb_refl in Hn.
      assert (In (Z.of_nat k, p_content pg) (store st)).
      { unfold store. apply in_map_iff. exists pg. split; [rewrite (Hid k pg Ek Efin); reflexivity|].
        apply filter_In. split; [eapply nth_error_In; exact Ek|exact Efin]. }
      specialize (Hn H0). discriminate.
    + cbn [option_map]. apply nth_error_None in Ek.
      replace (k <? length st)%nat with false by (symmetry; apply Nat.ltb_ge; lia). reflexivity.
Qed.

Lemma restore_no_error st c0 : ids_ok st -> snd (restore (as_stored (store st)) (fresh (length st) c0)) = true.
Proof.
  intros Hid.
  assert (G : forall (data : list (Z * C)) s, (forall d, In d data -> 0 <= fst d < zlen s) ->
     snd (restore (as_stored data) s) = true).
  { induction data as [|d t IH]; intros s H; [reflexivity|].
    cbn [as_stored map restore s_id s_ok]. fold (as_stored t).
    rewrite norm_index_in by (apply H; left; reflexivity).
    apply IH. intros e He. unfold zlen. rewrite update_length. apply H. right. exact He. }
  apply G. intros d Hd. apply store_entries in Hd; [|exact Hid].
  destruct Hd as (j & pg & Hj & _ & ->). cbn [fst]. rewrite zlen_fresh.
  assert (j < length st)%nat by (apply nth_error_Some; congruence). lia.
Qed.

Lemma store_restore_store st c0 : ids_ok st ->
  store (fst (restore (as_stored (store st)) (fresh (length st) c0))) = store st.
Proof.
  intros Hid. set (st' := fst _).
  assert (Hat : st' = map (fun kp => if p_final (snd kp) then mkPage (Z.of_nat (fst kp)) true (p_content (snd kp)) else mkPage (-1) false c0)
                          (combine (seq 0 (length st)) st)).
  { apply list_ext. intros k. unfold st'. rewrite store_restore_at by exact Hid.
    rewrite nth_error_map.
    assert (Hc : nth_error (combine (seq 0 (length st)) st) k = option_map (fun pg => (k, pg)) (nth_error st k)).
    { assert (G : forall (l : list page) j k, nth_error (combine (seq j (length l)) l) k =
                    option_map (fun pg => ((j + k)%nat, pg)) (nth_error l k)).
      { induction l as [|x t IH]; intros j i; destruct i; cbn; try reflexivity.
        - repeat f_equal. lia.
        - rewrite IH. destruct (nth_error t i); cbn; [repeat f_equal; lia|reflexivity]. }
      exact (G st O k). }
    rewrite Hc. destruct (nth_error st k); reflexivity. }
  rewrite Hat. unfold store. clear st' Hat.
  assert (G : forall (l : list page) j, (forall k pg, nth_error l k = Some pg -> p_final pg = true -> p_id pg = Z.of_nat (j + k)) ->
    map (fun pg => (p_id pg, p_content pg)) (filter p_final
      (map (fun kp => if p_final (snd kp) then mkPage (Z.of_nat (fst kp)) true (p_content (snd kp)) else mkPage (-1) false c0)
           (combine (seq j (length l)) l))) =
    map (fun pg => (p_id pg, p_content pg)) (filter p_final l)).
  { induction l as [|x t IH]; intros j H; [reflexivity|].
    cbn [length seq combine map filter fst snd].
    assert (IH' := IH (S j)).
    assert (Hpre : forall k q, nth_error t k = Some q -> p_final q = true -> p_id q = Z.of_nat (S j + k)).
    { intros k q Hk Hf. replace (S j + k)%nat with (j + S k)%nat by lia. apply H; assumption. }
    specialize (IH' Hpre).
    destruct (p_final x) eqn:E; cbn [p_final map p_id p_content]; [|exact IH'].
    f_equal; [|exact IH']. f_equal. rewrite (H O x eq_refl E). f_equal. lia. }
  apply (G st O). intros k pg Hk Hf. apply Hid; assumption.
Qed.

(** parse keeps ids consistent. *)
Lemma page_parse_fold_id k os : forall pg : page,
  (p_final pg = true -> p_id pg = Z.of_nat k) ->
  p_final (fold_left (fun p o => page_parse k o p) os pg) = true ->
  p_id (fold_left (fun p o => page_parse k o p) os pg) = Z.of_nat k.
Proof.
  induction os as [|o t IH]; intros pg H; cbn; [exact H|].
  apply IH. destruct o; cbn; auto.
Qed.
Lemma parse_ids_ok orc ix st : ids_ok st -> ids_ok (parse orc ix st).
Proof.
  intros H k pg. unfold parse. rewrite parse_loop_at.
  destruct (nth_error st k) as [q|] eqn:E; cbn; [|discriminate].
  intros Hq Hf. injection Hq as <-. apply page_parse_fold_id; [|exact Hf]. apply H. exact E.
Qed.
Lemma fresh_ids_ok n (c0 : C) : ids_ok (fresh n c0).
Proof.
  intros k pg. rewrite nth_error_fresh. destruct (k <? n)%nat; [|discriminate].
  intros H. injection H as <-. discriminate.
Qed.

Lemma run_ids_ok ops : forall st, ids_ok st -> Forall no_restore ops -> ids_ok (run st ops).
Proof.
  induction ops as [|o t IH]; intros st H Hf; [exact H|].
  inversion Hf as [|x l Ho Ht]; subst. cbn [run fold_left]. apply IH; [|exact Ht].
  destruct o; cbn [step fst]; try (apply parse_ids_ok; exact H); try exact H. destruct Ho.
Qed.

(* ------------------------------------------------------------------ *)
(** * Indexing *)
Lemma py_get_all (st : list page) m : 0 <= m <= zlen st ->
  flat_map (fun i => match py_get st i with Some p => [p] | None => [] end) (zrange 0 m)
  = firstn (Z.to_nat m) st.
Proof.
  intros Hm.
  rewrite (flat_map_ext_in _ (fun i => match nth_error st (Z.to_nat i) with Some x => [x] | None => [] end)).
  - rewrite firstn_skipn_seg by lia. cbn [skipn Z.to_nat]. f_equal. f_equal. lia.
  - intros i Hi. apply in_zrange in Hi. unfold py_get. rewrite norm_index_in by lia. reflexivity.
Qed.

Lemma getitem_slice_full st start stop step :
  match stop with None => True | Some v => zlen st <= v end ->
  getitem_slice st start stop step = py_slice st start stop step.
Proof.
  intros H. unfold getitem_slice.
  assert (E : (match stop with None => zlen st | Some v => if zlen st <? v then zlen st else v end) = zlen st).
  { destruct stop as [v|]; [|reflexivity]. destruct (zlen st <? v) eqn:E; lia. }
  rewrite E. rewrite py_get_all by (unfold zlen; lia).
  rewrite firstn_all2; [reflexivity|]. unfold zlen. lia.
Qed.

Lemma nth_error_firstn {A} (l : list A) m k : (k < m)%nat -> nth_error (firstn m l) k = nth_error l k.
Proof.
  revert m k. induction l as [|x t IH]; intros m k H; destruct m; destruct k; cbn; auto; try lia.
  apply IH. lia.
Qed.

Lemma getitem_slice_prefix st start v step :
  0 <= v < zlen st -> 0 < step -> match start with None => True | Some s => 0 <= s end ->
  getitem_slice st start (Some v) step = py_slice st start (Some v) step.
Proof.
  intros Hv Hs Hst. unfold getitem_slice.
  replace (zlen st <? v) with false by lia. rewrite py_get_all by lia.
  unfold py_slice.
  assert (Hl : zlen (firstn (Z.to_nat v) st) = v).
  { unfold zlen in *. rewrite firstn_length. lia. }
  rewrite Hl.
  assert (Hlo : slice_start v start step = slice_start (zlen st) start step \/
                (v <= slice_start v start step /\ v <= slice_start (zlen st) start step)).
  { unfold slice_start. replace (step <? 0) with false by lia. destruct start as [s|]; [|left; reflexivity].
    unfold adjust_bound. replace (s <? 0) with false by lia.
    destruct (v <=? s) eqn:E1; destruct (zlen st <=? s) eqn:E2; lia. }
  assert (Hhi : slice_stop v (Some v) step = v /\ slice_stop (zlen st) (Some v) step = v).
  { unfold slice_stop, adjust_bound. replace (step <? 0) with false by lia. replace (v <? 0) with false by lia.
    replace (v <=? v) with true by lia. replace (zlen st <=? v) with false by lia. lia. }
  assert (Hidx : slice_indices v start (Some v) step = slice_indices (zlen st) start (Some v) step).
  { unfold slice_indices. destruct Hhi as [-> ->]. destruct Hlo as [->|[H1 H2]]; [reflexivity|].
    unfold slice_count. replace (step <? 0) with false by lia.
    replace (slice_start v start step <? v) with false by lia.
    replace (slice_start (zlen st) start step <? v) with false by lia. reflexivity. }
  rewrite <- Hidx. apply flat_map_ext_in. intros i Hi.
  apply slice_indices_valid in Hi; [|lia|lia].
  rewrite nth_error_firstn by lia. reflexivity.
Qed.
End Pages.

(* ------------------------------------------------------------------ *)
(** * Segments of the workers *)
Lemma segment_zrange idx cpu s e :
  segment idx cpu s e =
  let num := Z.max 0 (e + 1 - s) in let sz := num / cpu + 1 in
  zrange (s + idx * sz) (s + Z.min (idx * sz + sz) num).
Proof. unfold segment. apply map_zrange_shift. Qed.

Lemma segments_cover_upto cpu s e (k : nat) : 1 <= cpu -> 
  let num := Z.max 0 (e + 1 - s) in let sz := num / cpu + 1 in
  flat_map (fun i => segment i cpu s e) (zrange 0 (Z.of_nat k)) = zrange s (s + Z.min (Z.of_nat k * sz) num).
Proof.
  intros Hc num sz. assert (Hsz : 1 <= sz).
  { unfold sz. assert (0 <= num / cpu) by (apply Z.div_pos; unfold num; lia). lia. }
  assert (Hn0 : 0 <= num) by (unfold num; lia).
  induction k as [|k IH].
  - cbn. rewrite zrange_empty by lia. reflexivity.
  - replace (Z.of_nat (S k)) with (Z.of_nat k + 1) by lia.
    rewrite <- (zrange_app 0 (Z.of_nat k) (Z.of_nat k + 1)) by lia.
    rewrite flat_map_app, IH. rewrite (zrange_cons (Z.of_nat k)) by lia.
    rewrite (zrange_empty (Z.of_nat k + 1)) by lia. cbn [flat_map]. rewrite app_nil_r.
    rewrite segment_zrange. fold num. cbv zeta. fold sz.
    set (a := Z.of_nat k) in *.
    destruct (Z_le_gt_dec (a * sz) num) as [H|H].
    + replace (Z.min (a * sz) num) with (a * sz) by lia.
      replace ((a + 1) * sz) with (a * sz + sz) by lia.
      apply zrange_app. nia.
    + rewrite (zrange_empty (s + a * sz)) by lia. rewrite app_nil_r. f_equal. nia.
Qed.

Lemma segments_cover cpu s e : 1 <= cpu ->
  flat_map (fun i => segment i cpu s e) (zrange 0 cpu) = zrange s (e + 1).
Proof.
  intros Hc. pose proof (segments_cover_upto cpu s e (Z.to_nat cpu) Hc) as H. cbv zeta in H.
  rewrite Z2Nat.id in H by lia. rewrite H.
  set (num := Z.max 0 (e + 1 - s)).
  assert (Hd : num < cpu * (num / cpu + 1)).
  { pose proof (Z.mul_succ_div_gt num cpu ltac:(lia)). lia. }
  replace (Z.min (cpu * (num / cpu + 1)) num) with num by lia.
  unfold num. destruct (Z_le_gt_dec s (e + 1)).
  - f_equal. lia.
  - rewrite !zrange_empty by lia. reflexivity.
Qed.

Lemma segment_empty_iff i cpu s e : 1 <= cpu -> 0 <= i ->
  (segment i cpu s e = [] <->
   Z.max 0 (e + 1 - s) <= i * (Z.max 0 (e + 1 - s) / cpu + 1)).
Proof.
  intros Hc Hi. rewrite segment_zrange. cbv zeta. set (num := Z.max 0 (e + 1 - s)).
  set (sz := num / cpu + 1).
  assert (Hsz : 1 <= sz).
  { unfold sz. assert (0 <= num / cpu) by (apply Z.div_pos; unfold num; lia). lia. }
  split.
  - intros H. destruct (Z_le_gt_dec num (i * sz)) as [Hle|Hgt]; [exact Hle|].
    rewrite zrange_cons in H by lia. discriminate.
  - intros H. apply zrange_empty. lia.
Qed.
