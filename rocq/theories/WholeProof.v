(** Lines beneath each other: sorting, joining, and grouping by origin. *)
From Verif Require Import GeomProof AssignSpec AssignProof InterProof GraphProof TextProof TextProps PySort FlowModel FlowSpec FlowProof.
From Verif Require Import CleanSpec CleanProof CleanProof2 CleanProof3.
From Verif Require WholeSpec.
From Coq Require Import Lia Lqa Permutation Sorting.Sorted.
Open Scope Q_scope.
Notation top_down := WholeSpec.top_down.

Lemma strict_unique {A} (le : A -> A -> Prop) : forall l m, StronglySorted (fun a b => ~ le b a) l -> StronglySorted le m -> Permutation m l -> m = l.
Proof.
  induction l as [|a l IH]; intros m Sl Sm P; [apply Permutation_nil, Permutation_sym, P|].
  destruct m as [|b m]; [apply Permutation_nil in P; discriminate P|]. inversion Sl as [|? ? Sl1 Fl]; subst. inversion Sm as [|? ? Sm1 Fm]; subst.
  assert (E : b = a).
  { assert (Hb : In b (a :: l)) by (eapply Permutation_in; [exact P|left; reflexivity]). destruct Hb as [<-|Hb]; [reflexivity|].
    assert (Ha : In a (b :: m)) by (eapply Permutation_in; [apply Permutation_sym, P|left; reflexivity]). destruct Ha as [<-|Ha]; [reflexivity|].
    rewrite Forall_forall in Fl, Fm. exfalso. exact (Fl b Hb (Fm a Ha)). }
  subst b. f_equal. apply IH; [exact Sl1|exact Sm1|]. eapply Permutation_cons_inv. exact P.
Qed.
Lemma sort_key_unique {A} (key : A -> list Q) l m : Permutation m l -> StronglySorted (fun a b => lex_le (key b) (key a) = false) l -> sort_key key m = l.
Proof.
  intros P S. unfold sort_key. apply (strict_unique (fun a b => lex_le (key a) (key b) = true)).
  - clear P. induction S as [|a l S IH F]; constructor; [exact IH|]. eapply Forall_impl; [|exact F]. intros b Hb K. cbv beta in K. congruence.
  - apply py_sort_sorted; intros; [apply lex_le_total|eapply lex_le_trans; eassumption].
  - eapply Permutation_trans; [apply Permutation_sym, py_sort_perm|exact P].
Qed.
(** Lines running from left to right, proper boxes. *)
Definition flat_line (l : line) : Prop := normal_line l /\ ln_dir l = LEFT_RIGHT.
Definition beneath (a b : line) : Prop := ry1 (ln_bbox a) <= ry0 (ln_bbox b).
Lemma top_down_lines ls : top_down (map ln_bbox ls) <-> StronglySorted beneath ls.
Proof.
  unfold WholeSpec.top_down. split.
  - induction ls as [|l t IH]; intros H; [constructor|]. cbn [map] in H. inversion H as [|? ? H1 H2]; subst. constructor; [apply IH, H1|]. rewrite Forall_forall in *. intros x Hx. apply H2. apply in_map. exact Hx.
  - induction 1 as [|l t S IH F]; [constructor|]. cbn [map]. constructor; [exact IH|]. rewrite Forall_forall in *. intros x Hx. apply in_map_iff in Hx. destruct Hx as (y & <- & Hy). exact (F y Hy).
Qed.
Lemma dir_of ls : (forall l, In l ls -> flat_line l) -> lines_dir ls = LEFT_RIGHT.
Proof.
  intros H. unfold lines_dir, coll_dir. destruct ls as [|l t]; [reflexivity|]. cbn [map]. destruct (forallb _ _); [|reflexivity]. exact (proj2 (H l (or_introl eq_refl))).
Qed.
Lemma flat_ext l : flat_line l -> ry0 (ln_bbox l) < ry1 (ln_bbox l) /\ rx0 (ln_bbox l) < rx1 (ln_bbox l).
Proof. intros (((A & B) & _) & _). split; assumption. Qed.
Lemma not_row a b : flat_line a -> flat_line b -> beneath a b -> same_row a b = false /\ same_row b a = false.
Proof.
  intros Ha Hb Hl. destruct (flat_ext a Ha) as [A _], (flat_ext b Hb) as [B _]. unfold beneath in Hl. unfold same_row, in_same_row, ln_elem. cbn [e_dir e_bbox].
  rewrite (proj2 Ha), (proj2 Hb). change (is_horizontal LEFT_RIGHT) with true. cbn [lo hi]. cbv zeta.
  split.
  - destruct (negb _ || negb _); [reflexivity|]. apply andb_false_iff. right. destruct (qle_spec ((ry0 (ln_bbox b) + ry1 (ln_bbox b)) / 2) (ry1 (ln_bbox a))) as [K|K]; [|reflexivity].
    setoid_replace ((ry0 (ln_bbox b) + ry1 (ln_bbox b)) / 2) with ((ry0 (ln_bbox b) + ry1 (ln_bbox b)) * (1 # 2)) in K by field. exfalso. lra.
  - destruct (negb _ || negb _); [reflexivity|]. apply andb_false_iff. left. destruct (qle_spec ((ry0 (ln_bbox b) + ry1 (ln_bbox b)) / 2) (ry1 (ln_bbox a))) as [K|K]; [|reflexivity].
    setoid_replace ((ry0 (ln_bbox b) + ry1 (ln_bbox b)) / 2) with ((ry0 (ln_bbox b) + ry1 (ln_bbox b)) * (1 # 2)) in K by field. exfalso. lra.
Qed.
Lemma key_before a b : flat_line a -> flat_line b -> beneath a b -> lex_le (line_reading_key true b) (line_reading_key true a) = false.
Proof.
  intros Ha Hb Hl. destruct (flat_ext a Ha) as [A _], (flat_ext b Hb) as [B _]. unfold beneath in Hl. unfold line_reading_key. cbn [lex_le].
  destruct (qeq_spec (ry0 (ln_bbox b)) (ry0 (ln_bbox a))) as [K|K]; [exfalso; lra|]. destruct (qlt_spec (ry0 (ln_bbox b)) (ry0 (ln_bbox a))) as [K'|K']; [exfalso; lra|reflexivity].
Qed.
Lemma rows_single ls : (forall l, In l ls -> flat_line l) -> StronglySorted beneath ls ->
  forall rows, match rows with (p :: _) :: _ => flat_line p /\ Forall (beneath p) ls | [] => True | _ => False end ->
  rows_of ls rows = rev (map (@rev line) rows) ++ map (fun l => [l]) ls.
Proof.
  intros H S. induction S as [|l t S IH F]; intros rows R; [cbn [rows_of map]; rewrite app_nil_r; reflexivity|]. cbn [rows_of map].
  assert (Hl : flat_line l) by (apply H; left; reflexivity).
  assert (E : rows_of t ([l] :: rows) = rev (map (@rev line) rows) ++ [l] :: map (fun l => [l]) t).
  { rewrite IH; [|intros x Hx; apply H; right; exact Hx|split; assumption]. cbn [map rev app]. rewrite <- app_assoc. reflexivity. }
  destruct rows as [|[|p row] rows]; [exact E|destruct R|]. destruct R as [Hp Fp]. inversion Fp as [|? ? Pl _]; subst. rewrite (proj2 (not_row p l Hp Hl Pl)). exact E.
Qed.
Lemma lines_sort_down m ls : (forall l, In l ls -> flat_line l) -> StronglySorted beneath ls -> Permutation m ls -> lines_sort m = ls.
Proof.
  intros H S P. unfold lines_sort. rewrite dir_of by (intros l Hl; apply H; eapply Permutation_in; [exact P|exact Hl]). change (is_horizontal LEFT_RIGHT) with true. cbv zeta.
  assert (K : sort_key (line_reading_key true) m = ls).
  { apply sort_key_unique; [exact P|]. clear P m. induction S as [|l t S IH F]; constructor; [apply IH; intros x Hx; apply H; right; exact Hx|]. rewrite Forall_forall in *. intros x Hx. apply key_before; [apply H; left; reflexivity|apply H; right; exact Hx|apply F, Hx]. }
  rewrite K, (rows_single ls H S [] I). cbn [map rev app]. clear. induction ls as [|l t IH]; [reflexivity|]. cbn [map concat]. rewrite IH. reflexivity.
Qed.
Lemma no_overlap thr a b : 1 # 1000000 < thr -> flat_line a -> flat_line b -> beneath a b ->
  match get_main_bbox (ln_bbox b) (ln_bbox a) thr with Some m => rect_bool m | None => false end = false.
Proof.
  intros T Ha Hb Hl. destruct (match get_main_bbox (ln_bbox b) (ln_bbox a) thr with Some m => rect_bool m | None => false end) eqn:E; [|reflexivity]. exfalso.
  apply (overlap_test thr b a T (proj1 (proj1 Hb)) (proj1 (proj1 Ha))) in E. destruct E as [E _].
  rewrite (shared_area _ _ (proj1 (proj1 Hb)) (proj1 (proj1 Ha))) in E.
  assert (Z : AssignSpec.shared (ln_bbox b) (ln_bbox a) == 0) by (apply shared_apart; right; right; right; exact Hl). lra.
Qed.
Lemma join_loop_down thr merging : 1 # 1000000 < thr -> forall t pre cand out, flat_line pre -> (forall l, In l t -> flat_line l) -> StronglySorted beneath (pre :: t) ->
  join_loop thr merging pre t cand out = out ++ keep_lines (merged_line cand) ++ t.
Proof.
  intros T. induction t as [|l t IH]; intros pre cand out Hp Ht S; [cbn [join_loop]; rewrite app_nil_r; reflexivity|].
  assert (Hl : flat_line l) by (apply Ht; left; reflexivity). inversion S as [|? ? S1 F]; subst. inversion F as [|? ? Pl _]; subst.
  cbn [join_loop]. rewrite (no_overlap thr pre l T Hp Hl Pl), (proj2 (not_row pre l Hp Hl Pl)). cbn [negb orb].
  rewrite IH; [|exact Hl|intros x Hx; apply Ht; right; exact Hx|exact S1]. cbn [merged_line keep_lines filter app]. unfold keep_lines at 2. cbn [filter].
  rewrite (normal_bool l (proj1 Hl)). rewrite <- !app_assoc. reflexivity.
Qed.
(** Joining lines beneath each other only sorts them. *)
Lemma lines_join_down thr merging m ls : 1 # 1000000 < thr -> (forall l, In l ls -> flat_line l) -> StronglySorted beneath ls -> Permutation m ls -> lines_join thr merging m = ls.
Proof.
  intros T H S P. unfold lines_join. rewrite (lines_sort_down m ls H S P). destruct ls as [|l t]; [reflexivity|].
  assert (K : forall x : list line, (forall l, In l x -> flat_line l) -> keep_lines x = x) by (intros x Hx; apply keep_all; intros y Hy; apply normal_bool; exact (proj1 (Hx y Hy))).
  rewrite join_loop_down; [|exact T|apply H; left; reflexivity|intros x Hx; apply H; right; exact Hx|exact S].
  cbn [app merged_line map concat]. unfold line_add_all. cbn [fold_left]. rewrite (K [l]); [|intros x [<-|[]]; apply H; left; reflexivity]. apply (K (l :: t)). exact H.
Qed.
(** Any order of lines that can be laid beneath each other. *)
Definition stackable (ls : list line) : Prop := exists s, Permutation ls s /\ StronglySorted beneath s.
Lemma sub_sorted {A} (R : A -> A -> Prop) (l m r : list A) : Permutation l (m ++ r) -> StronglySorted R l -> exists s, Permutation m s /\ StronglySorted R s.
Proof.
  intros P S. revert m r P. induction S as [|a l S IH F]; intros m r P.
  - apply Permutation_nil in P. apply app_eq_nil in P. destruct P as [-> ->]. exists []. split; constructor.
  - assert (Ha : In a (m ++ r)) by (eapply Permutation_in; [exact P|left; reflexivity]). apply in_app_or in Ha. destruct Ha as [Ha|Ha]; apply in_split in Ha; destruct Ha as (x & y & ->).
    + rewrite <- app_assoc in P. cbn [app] in P. apply Permutation_cons_app_inv in P. rewrite app_assoc in P. destruct (IH (x ++ y) r P) as (s & Ps & Ss). exists (a :: s). split; [|constructor; [exact Ss|]].
      * apply Permutation_sym, Permutation_cons_app, Permutation_sym, Ps.
      * rewrite Forall_forall in *. intros z Hz. apply F. eapply Permutation_in; [apply Permutation_sym, P|]. apply in_or_app. left. eapply Permutation_in; [apply Permutation_sym, Ps|exact Hz].
    + rewrite app_assoc in P. apply Permutation_cons_app_inv in P. rewrite <- app_assoc in P. destruct (IH m (x ++ y) P) as (s & Ps & Ss). exists s. split; assumption.
Qed.
Lemma beneath_earlier a b ls s : (forall l, In l ls -> flat_line l) -> Permutation ls s -> StronglySorted beneath s -> earlier ls a b -> beneath a b \/ beneath b a.
Proof.
  intros H P S (x & y & z & E). assert (P2 : Permutation s ([a; b] ++ (x ++ y ++ z))).
  { eapply Permutation_trans; [apply Permutation_sym, P|]. rewrite E. cbn [app]. apply Permutation_sym, Permutation_cons_app. rewrite !app_assoc. apply Permutation_cons_app. apply Permutation_refl. }
  destruct (sub_sorted beneath s [a; b] _ P2 S) as (s' & P' & S'). apply Permutation_length_2_inv in P'. destruct P' as [->| ->]; inversion S' as [|? ? _ F]; inversion F; auto.
Qed.
(** Lines beneath each other flow. *)
Lemma flow_down order tol sep ls s : (forall l, Permutation l (order l)) -> 0 < tol -> (forall l, In l ls -> flat_line l) -> Permutation ls s -> StronglySorted beneath s ->
  is_flow_layout order tol sep ls = Some true.
Proof.
  intros Ho T H P S. apply flow_plain; [exact Ho|]. intros a b E.
  assert (Ia : In a ls) by (destruct E as (x & y & z & ->); apply in_or_app; right; left; reflexivity).
  assert (Ib : In b ls) by (destruct E as (x & y & z & ->); apply in_or_app; right; right; apply in_or_app; right; left; reflexivity).
  pose proof (beneath_earlier a b ls s H P S E) as B. destruct (flat_ext a (H a Ia)) as [A1 _], (flat_ext b (H b Ib)) as [B1 _].
  unfold row_mate. apply andb_false_iff. left. unfold horizontally_align_with, ln_elem, elem_bool. cbn [e_bbox e_dir].
  destruct (negb _ || negb _); [reflexivity|]. rewrite (proj2 (H a Ia)). change (is_horizontal LEFT_RIGHT) with true. cbv zeta. unfold overlap_enough. cbn [hi lo].
  match goal with |- qle ?x ?y = false => destruct (qle_spec x y) as [K|K]; [exfalso|reflexivity] end. unfold beneath in B.
  set (ra := ln_bbox a) in *. set (rb := ln_bbox b) in *. clearbody ra rb. clear - T A1 B1 B K.
  assert (M : 0 < qmin (ry1 ra - ry0 ra) (ry1 rb - ry0 rb)) by (unfold qmin; qcases; lra).
  assert (Mm : 0 < tol * qmin (ry1 ra - ry0 ra) (ry1 rb - ry0 rb)) by (apply Qmult_lt_0_compat; assumption).
  assert (Z : ry1 ra - ry0 ra + (ry1 rb - ry0 rb) - (qmax (ry1 ra) (ry1 rb) - qmin (ry0 ra) (ry0 rb)) <= 0) by (unfold qmax, qmin; qcases; lra). lra.
Qed.
