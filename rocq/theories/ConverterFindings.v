(** Concrete witnesses for defects of converter.py/main.py, and small facts
    used by ConverterProps. *)
From Coq Require Import String Ascii.
From Verif Require Import PyBase PyBaseProof ConverterModel ConverterSpec ConverterProof MpModel MpProof.
Open Scope Z_scope.
Close Scope string_scope.

(** Deterministic parser succeeding on every page. *)
Definition ok_orc : Z -> outcome Z := fun i => Done (100 + i).

Lemma end_zero_refuted_l : exists n i, 0 <= n /\ In i (page_indexes 0 (Some 0) [] n) /\ ~ (i < 0).
Proof. exists 3, 1. split; [lia|]. split; [right; left; reflexivity|lia]. Qed.

Lemma cli_end_one_refuted_l : exists n i, In i (map (fun i => i + 1) (cli_page_indexes false 1 (Some 1) [] n)) /\ ~ (i < 1) /\ ~ (i <= 1).
Proof. exists 3, 2. split; [right; left; reflexivity|lia]. Qed.

Lemma empty_selection_refuted_l : exists n start end_ ps,
  page_indexes start end_ ps (Z.of_nat n) = [] /\
  exists d, snd (step (fresh n 0) (OpConvert start end_ ps (fun _ => ok_orc) (fun _ => true))) = RDoc d
            /\ map d_id d = [0; 1; 2].
Proof.
  exists 3%nat, 0, None, [100]. split; [reflexivity|].
  eexists. split; [vm_compute; reflexivity|reflexivity].
Qed.

Lemma stale_pages_refuted_l : exists d,
  let st := run (fresh 2 0) [OpConvert 0 None [0] (fun _ => ok_orc) (fun _ => true)] in
  snd (step st (OpConvert 0 None [1] (fun _ => ok_orc) (fun _ => true))) = RDoc d /\
  page_indexes 0 None [1] 2 = [1] /\ map d_id d = [0; 1].
Proof.
  eexists. cbv zeta. split; [vm_compute; reflexivity|]. split; reflexivity.
Qed.

Lemma source_deleted_refuted_l : exists (pdf : list ascii) (f : fs Z),
  f pdf = Some (FOther 1) /\ make_docx f (out_path None pdf) (Some 7) pdf = Some (FDocx 7).
Proof.
  exists ["A"; "."; "P"; "D"; "F"]%char, (fun _ => Some (FOther 1)).
  split; [reflexivity|]. vm_compute. reflexivity.
Qed.

Lemma directory_rewritten_refuted_l : exists pdf, contains_pdf pdf /\
  out_path None pdf = list_ascii_of_string "a.docx/b.docx"%string /\ pdf = list_ascii_of_string "a.pdf/b.pdf"%string.
Proof.
  exists (list_ascii_of_string "a.pdf/b.pdf"%string). split; [|split; reflexivity].
  exists ["a"%char], (list_ascii_of_string "/b.pdf"%string). reflexivity.
Qed.

Lemma crash_loses_both_refuted_l : exists (f : fs Z) p d k,
  f p = Some (FOther 1) /\ after_crash f p (Some d) k p = None.
Proof.
  exists (fun _ => Some (FOther 1)), ["o"%char], 7, 1%nat. split; reflexivity.
Qed.

Lemma mp_holes_refuted_l : exists st', mp_restore 6 0 ok_orc (fun c => c) 2 [0; 5] (fresh 6 0) = Some st' /\
  ~ In 3 [0; 5] /\ finished_at st' 3 = true.
Proof. eexists. split; [vm_compute; reflexivity|]. split; [|reflexivity]. intros [H|[H|[]]]; discriminate. Qed.

Lemma mp_empty_segment_refuted_l : exists st', mp_restore 10 0 ok_orc (fun c => c) 4 [0; 1; 2] (fresh 10 0) = Some st' /\
  ~ In 9 [0; 1; 2] /\ finished_at st' 9 = true /\
  finished_at (parse (fun _ => ok_orc) [0; 1; 2] (fresh 10 0)) 9 = false.
Proof.
  eexists. split; [vm_compute; reflexivity|]. split; [|split; reflexivity].
  intros [H|[H|[H|[]]]]; discriminate.
Qed.

Lemma mp_empty_selection_l n (c0 : Z) orc rt cpu st : mp_restore n c0 orc rt cpu [] st = None.
Proof. reflexivity. Qed.

(** Two conversions sharing a working directory: worker 0 of job A, then worker
    0 of job B write the same file; A reads B's pages. *)
Lemma mp_two_jobs_refuted_l : exists (dataA dataB : nat -> list (Z * Z)) st,
  let dirA := mp_dir (run_workers dataA (fun _ => None) [0; 0]%nat) in
  let dirB := mp_dir (run_workers dataB dirA [0; 0]%nat) in
  st = fst (fst (collect (fun c => c) 1 0 dirB (fresh 2 0))) /\
  dataA 0%nat = [(0, 11)] /\ finished_at st 0 = false /\ content_at 0 st 1 = 22.
Proof.
  exists (fun _ => [(0, 11)]), (fun _ => [(1, 22)]). eexists. cbv zeta.
  split; [reflexivity|]. split; [reflexivity|]. split; reflexivity.
Qed.

Lemma slice_negative_refuted_l : exists st : list (page Z),
  getitem_slice st (Some 0) (Some (-1)) 1 <> py_slice st (Some 0) (Some (-1)) 1 /\
  getitem_slice st (Some (-2)) (Some 2) 1 <> py_slice st (Some (-2)) (Some 2) 1 /\
  getitem_slice st (Some 2) (Some 0) (-1) <> py_slice st (Some 2) (Some 0) (-1).
Proof.
  exists [mkPage 0 true 0; mkPage 1 true 0; mkPage 2 true 0].
  repeat split; vm_compute; discriminate.
Qed.

(** List indexing, stated with [nth_error]. *)
Lemma getitem_int_spec {C} (st : list (page C)) i :
  getitem_int st i =
    if (0 <=? i) && (i <? zlen st) then nth_error st (Z.to_nat i)
    else if (- zlen st <=? i) && (i <? 0) then nth_error st (length st - Z.to_nat (- i))
    else None.
Proof.
  unfold getitem_int, py_get, norm_index. destruct (_ && _) eqn:E; [reflexivity|].
  destruct ((- zlen st <=? i) && (i <? 0)) eqn:E2; [|reflexivity]. f_equal. unfold zlen in *. lia.
Qed.

Lemma getitem_int_total {C} (st : list (page C)) i :
  (getitem_int st i <> None <-> - zlen st <= i < zlen st).
Proof.
  rewrite getitem_int_spec. unfold zlen.
  destruct (_ && _) eqn:E.
  - split; [lia|]. intros _ H. apply nth_error_None in H. lia.
  - destruct ((- Z.of_nat (length st) <=? i) && (i <? 0)) eqn:E2.
    + split; [lia|]. intros _ H. apply nth_error_None in H. lia.
    + split; [congruence|lia].
Qed.

(** Fresh-converter conversion in the vocabulary of the property. *)
Lemma convert_fresh_l (C : Type) start end_ ps (orc : Z -> outcome C) emit n c0 :
  let sel := page_indexes start end_ ps (Z.of_nat n) in
  sel <> [] ->
  let good := filter (fun i => (if in_dec Z.eq_dec i sel then true else false) && succeeded (orc i))
                     (zrange 0 (Z.of_nat n)) in
  match snd (step (fresh n c0) (OpConvert start end_ ps (fun _ => orc) emit)) with
  | RDoc d => good <> [] /\ map d_id d = good /\
              forall p, In p d -> orc (d_id p) = Done (d_content p)
  | RRaise => good = []
  | _ => False
  end.
Proof.
  intros sel Hne good. pose proof (convert_fresh_doc start end_ ps orc emit n c0) as H. cbv zeta in H. fold sel in H.
  assert (E : filter (selected_ok orc sel) (zrange 0 (Z.of_nat n)) = good).
  { unfold good. apply filter_ext. intros i. unfold selected_ok. destruct sel; [congruence|reflexivity]. }
  rewrite E in H. destruct (snd _) as [| |d| |]; try exact H.
  destruct H as [H1 H2]. split; [exact H1|]. 
  assert (Hids : map d_id d = good).
  { assert (Hx : map fst (map (fun p => (d_id p, d_content p)) d) = map fst (map (fun i => (i, match orc i with Done c => c | _ => c0 end)) good)) by (rewrite H2; reflexivity).
    rewrite !map_map in Hx. cbn in Hx. rewrite map_id in Hx. exact Hx. }
  split; [exact Hids|]. intros p Hp.
  assert (Hin : In (d_id p, d_content p) (map (fun i => (i, match orc i with Done c => c | _ => c0 end)) good)).
  { rewrite <- H2. apply in_map_iff. exists p. split; [reflexivity|exact Hp]. }
  apply in_map_iff in Hin. destruct Hin as (i & Ei & Hi). injection Ei as <- <-.
  apply filter_In in Hi. destruct Hi as [_ Hi]. apply andb_prop in Hi. destruct Hi as [_ Hi].
  destruct (orc i); cbn in Hi; try discriminate. reflexivity.
Qed.

(** Which files exist when [convert] raises. *)
Lemma raise_leaves_files (f : fs Z) p : make_docx f p None = f.
Proof. reflexivity. Qed.

(** History without failing re-parse is monotone. *)
Lemma history_monotone_l (C : Type) n (c0 : C) ops1 ops2 k : (k < n)%nat ->
  finished_at (run (fresh n c0) ops1) k = true ->
  ~ In EBroken (history_events (Z.of_nat n) k ops2) ->
  finished_at (run (fresh n c0) (ops1 ++ ops2)) k = true.
Proof.
  intros Hk H1 H2. rewrite history_finished in * by exact Hk.
  unfold history_events in *. rewrite flat_map_app, rev_app_distr.
  set (l2 := flat_map (op_events (Z.of_nat n) k) ops2) in *.
  assert (Hn : ~ In EBroken (rev l2)) by (intros X; apply H2; apply in_rev; exact X).
  induction (rev l2) as [|e t IH]; cbn [app finished]; [exact H1|].
  destruct e; [reflexivity| |].
  - exfalso. apply Hn. left. reflexivity.
  - apply IH. intros X. apply Hn. right. exact X.
Qed.
