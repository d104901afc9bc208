(** The clean-up of a page of paragraphs. *)
From Verif Require Import GeomProof AssignSpec AssignProof InterProof GraphProof TextProof TextProps PySort FlowModel FlowSpec FlowProof.
From Verif Require Import CleanSpec CleanProof CleanProof2 CleanProof3 CleanProps.
From Verif Require Import WholeSpec.
From Verif Require Import InterSpec InterModel.
From Verif Require Import CleanModel CleanSpec WholeProof.
From Coq Require Import Lia Lqa Permutation Sorting.Sorted.
Open Scope Q_scope.

(** The box around lines. *)
Definition hull (ls : list line) : rect := fold_left (fun r l => union_bbox r (ln_bbox l)) ls rect0.
Lemma clear_none bs : forall k, clear_all [] k bs = bs.
Proof. intros k. apply nth_ext_error. intros j. rewrite nth_clear_all. unfold cleared. destruct (nth_error bs j); reflexivity. Qed.
Lemma joined_box thr merging g l0 : (forall b, In b g -> b_bool b = true) -> (forall l, In l (lines_in g) -> normal_line l) -> In l0 (lines_in g) -> box (b_bbox (joined_block thr merging g)).
Proof.
  intros B N H. unfold joined_block. cbn [b_bbox]. rewrite (filter_all b_bool g B). fold (lines_in g). rewrite (normal_filter (lines_in g) N).
  apply grow_all. destruct (lines_in g) as [|l t]; [destruct H|]. apply fold_boxes0; [reflexivity|]. intros y Hy. destruct (N y Hy) as (P & D & _). split; assumption.
Qed.
Lemma joined_lines thr merging gs : 1 # 1000000 < thr -> (forall b, In b (concat gs) -> b_bool b = true /\ forall l, In l (b_lines b) -> flat_line l) ->
  (forall g, In g gs -> stackable (lines_in g)) ->
  Permutation (lines_in (filter b_bool (map (joined_block thr merging) gs))) (lines_in (concat gs)) /\
  forall b, In b (filter b_bool (map (joined_block thr merging) gs)) -> b_img b = false /\ box (b_bbox b) /\ b_lines b <> [] /\ StronglySorted beneath (b_lines b) /\ exists m, b_bbox b = hull m /\ forall l, In l m <-> In l (b_lines b).
Proof.
  intros T. induction gs as [|g gs IH]; intros B St; [split; [constructor|intros b []]|].
  destruct IH as [IP IB]; [intros b Hb; apply B; cbn [concat]; apply in_or_app; right; exact Hb|intros g' Hg; apply St; right; exact Hg|].
  assert (Bg : forall b, In b g -> b_bool b = true /\ forall l, In l (b_lines b) -> flat_line l) by (intros b Hb; apply B; cbn [concat]; apply in_or_app; left; exact Hb).
  assert (Fl : forall l, In l (lines_in g) -> flat_line l) by (intros l Hl; apply in_flat_map in Hl; destruct Hl as (b & Hb & Hl); exact (proj2 (Bg b Hb) l Hl)).
  destruct (joined_truthy thr merging g) as [J1 J2]; [intros b l Hb _ Hl; exact (proj1 (proj2 (Bg b Hb) l Hl))|].
  rewrite (filter_all b_bool g (fun b Hb => proj1 (Bg b Hb))) in J1, J2. destruct (St g (or_introl eq_refl)) as (s & Ps & Ss).
  rewrite (lines_join_down thr merging (lines_in g) s T) in J2; [|intros l Hl; apply Fl; eapply Permutation_in; [apply Permutation_sym, Ps|exact Hl]|exact Ss|exact Ps].
  cbn [map filter concat]. rewrite lines_in_app, J1. destruct (lines_in g) as [|l0 r0] eqn:El.
  - split; [exact IP|exact IB].
  - split.
    + change (joined_block thr merging g :: filter b_bool (map (joined_block thr merging) gs)) with ([joined_block thr merging g] ++ filter b_bool (map (joined_block thr merging) gs)).
      rewrite lines_in_app. apply Permutation_app; [|exact IP]. unfold lines_in. cbn [flat_map]. rewrite app_nil_r, J2. apply Permutation_sym, Ps.
    + intros b [<-|Hb]; [|apply IB, Hb]. split; [reflexivity|]. split.
      * apply (joined_box thr merging g l0); [intros b Hb; apply (Bg b Hb)|intros l Hl; apply Fl; rewrite El in Hl; exact Hl|rewrite El; left; reflexivity].
      * rewrite J2. split; [intros E; rewrite E in Ps; apply Permutation_sym, Permutation_nil in Ps; discriminate Ps|]. split; [exact Ss|].
        exists (lines_in g ++ s). split.
        -- unfold joined_block in J2 |- *. cbn [b_bbox b_lines] in J2 |- *. rewrite J2. rewrite (filter_all b_bool g (fun b Hb => proj1 (Bg b Hb))). fold (lines_in g). rewrite (normal_filter (lines_in g)) by (intros l Hl; apply Fl; rewrite El in Hl; exact Hl). unfold hull. rewrite fold_left_app. reflexivity.
        -- intros l. rewrite in_app_iff. rewrite El. split; [intros [H|H]; [eapply Permutation_in; [exact Ps|exact H]|exact H]|intros H; right; exact H].
Qed.
Lemma concat_part {A} (gs : list (list A)) g : In g gs -> exists r, Permutation (concat gs) (g ++ r).
Proof. intros H. apply in_split in H. destruct H as (x & y & ->). exists (concat x ++ concat y). rewrite concat_app. cbn [concat]. rewrite !app_assoc. apply Permutation_app_tail. apply Permutation_app_comm. Qed.
Lemma perm_parts {A} (P : A -> Prop) : forall c a b d, Permutation (a ++ b) (c ++ d) -> (forall x, In x a -> ~ P x) -> (forall x, In x b -> P x) -> (forall x, In x c -> P x) -> (forall x, In x d -> ~ P x) ->
  Permutation b c /\ Permutation a d.
Proof.
  induction c as [|x c IH]; intros a b d H Ha Hb Hc Hd.
  - destruct b as [|y b]; [split; [constructor|rewrite app_nil_r in H; exact H]|]. exfalso. apply (Hd y); [|apply Hb; left; reflexivity]. eapply Permutation_in; [exact H|]. apply in_elt.
  - assert (Hx : In x (a ++ b)) by (eapply Permutation_in; [apply Permutation_sym, H|left; reflexivity]). apply in_app_or in Hx. destruct Hx as [Hx|Hx]; [exfalso; apply (Ha x Hx), Hc; left; reflexivity|].
    apply in_split in Hx. destruct Hx as (b1 & b2 & ->). cbn [app] in H.
    assert (H' : Permutation (a ++ b1 ++ b2) (c ++ d)) by (apply Permutation_sym; rewrite app_assoc; apply Permutation_cons_app_inv with x; rewrite <- app_assoc; apply Permutation_sym; exact H).
    destruct (IH a (b1 ++ b2) d H' Ha) as (I1 & I2); [intros y Hy; apply Hb; apply in_app_or in Hy; apply in_or_app; destruct Hy; [left|right; right]; assumption|intros y Hy; apply Hc; right; exact Hy|exact Hd|].
    split; [|exact I2]. apply Permutation_sym, Permutation_cons_app, Permutation_sym, I1.
Qed.
Lemma perm_two {A} (P Q : list A) x y rest : Permutation (P ++ Q) (x :: y :: rest) -> (exists r, Permutation P (x :: y :: r)) \/ (In x P /\ In y Q) \/ In x Q.
Proof.
  intros H. assert (Hx : In x (P ++ Q)) by (eapply Permutation_in; [apply Permutation_sym, H|left; reflexivity]). apply in_app_or in Hx. destruct Hx as [Hx|Hx]; [|right; right; exact Hx].
  apply in_split in Hx. destruct Hx as (p1 & p2 & ->). assert (H' : Permutation ((p1 ++ p2) ++ Q) (y :: rest)) by (apply Permutation_sym; rewrite <- app_assoc; apply Permutation_cons_app_inv with x; rewrite <- app_assoc in H; cbn [app] in H; apply Permutation_sym; exact H).
  assert (Hy : In y ((p1 ++ p2) ++ Q)) by (eapply Permutation_in; [apply Permutation_sym, H'|left; reflexivity]). apply in_app_or in Hy. destruct Hy as [Hy|Hy]; [|right; left; split; [apply in_elt|exact Hy]].
  left. apply in_split in Hy. destruct Hy as (q1 & q2 & E). exists (q1 ++ q2). apply Permutation_sym, Permutation_cons_app. rewrite E. apply Permutation_cons_app, Permutation_refl.
Qed.
Lemma sorted_two (ls : list line) x y r : StronglySorted beneath ls -> Permutation ls (x :: y :: r) -> ry1 (ln_bbox x) <= ry0 (ln_bbox y) \/ ry1 (ln_bbox y) <= ry0 (ln_bbox x).
Proof.
  intros S H. destruct (sub_sorted beneath ls [x; y] r H S) as (s & A & B). assert (L : length s = 2%nat) by (rewrite <- (Permutation_length A); reflexivity).
  destruct s as [|u [|v [|]]]; try discriminate L. inversion B as [|? ? _ F]; subst. rewrite Forall_forall in F. specialize (F v (or_introl eq_refl)). unfold beneath in F.
  apply Permutation_length_2 in A. destruct A as [(-> & ->)|(-> & ->)]; [left|right]; exact F.
Qed.
Lemma concat_filter {A} (f : A -> bool) gs : concat (map (filter f) gs) = filter f (concat gs).
Proof. induction gs as [|g gs IH]; [reflexivity|]. cbn [map concat]. rewrite IH, filter_app. reflexivity. Qed.
Lemma Permutation_filter' {A} (f : A -> bool) l m : Permutation l m -> Permutation (filter f l) (filter f m).
Proof. induction 1; cbn [filter]; [constructor|destruct (f x); [constructor|]; assumption|destruct (f x), (f y); try constructor; apply Permutation_refl|eapply Permutation_trans; eassumption]. Qed.
Lemma joined_filter thr merging gs : map (joined_block thr merging) (map (filter b_bool) gs) = map (joined_block thr merging) gs.
Proof. rewrite map_map. apply map_ext. intros g. unfold joined_block. rewrite filter_filter. rewrite (filter_ext (fun b => b_bool b && b_bool b)%bool b_bool) by (intros b; apply andb_diag). reflexivity. Qed.
(** Lines and blocks of a page of paragraphs and pictures after the clean-up. *)
Lemma clean_pictures order gap thr merging r ts fs : (forall l, Permutation l (order l)) -> 1 # 1000000 < thr -> 0 <= gap -> picture_page gap r ts fs ->
  exists fl out, clean_up order (page_box r) gap thr merging (r_blocks r) = Some (map image_of fl, out) /\ Permutation fl fs /\ Permutation (lines_in out) (lines_in ts) /\
    (forall b, In b out -> b_img b = false /\ box (b_bbox b) /\ b_lines b <> [] /\ StronglySorted beneath (b_lines b) /\ exists m, b_bbox b = hull m /\ forall l, In l m <-> In l (b_lines b)) /\
    (forall a b rest, Permutation out (a :: b :: rest) -> ~ beside (b_bbox a) (b_bbox b)).
Proof.
  intros Ho T Gp (_ & Pp & K & P & Pa & _ & Td & (Wd & On & Cl)). apply top_down_lines in Td.
  assert (Pt : forall b, In b (r_blocks r) -> paragraph (block_strip b)).
  { intros b Hb. rewrite Forall_forall in Pa. apply Pa. eapply Permutation_in; [exact P|]. apply in_map, Hb. }
  assert (Im : forall b, In b (r_blocks r) -> b_img b = true -> wrapped_image b) by (intros b Hb; apply (K b Hb)).
  assert (Nl : forall b l, In b (r_blocks r) -> In l (b_lines b) -> normal_line (stripped l)).
  { intros b l Hb Hl. destruct (Pt b Hb) as (_ & _ & _ & _ & H). apply H. rewrite strip_lines. apply in_map, Hl. }
  assert (Pg : page_of (page_box r) (r_blocks r) (r_blocks r) []).
  { split; [exact Pp|]. split; [intros b Hb; apply (K b Hb)|]. split; [exact Im|]. split; [rewrite app_nil_r; apply Permutation_refl|]. split; [intros b Hb; apply (K b Hb)|]. split; [intros b []|exact Nl]. }
  destruct (clean_steps order (page_box r) gap thr merging (r_blocks r) (r_blocks r) [] Ho Pp (fun b Hb => proj1 (K b Hb)) Im T) as (sorted & gs & M & out & PS & G & EM & CU & J & FB & SP & I & TS & NS & Back);
    [rewrite app_nil_r; apply Permutation_refl|intros b Hb; apply (K b Hb)|intros b []|exact Nl|].
  assert (PT : Permutation sorted (ts ++ fs)) by (eapply Permutation_trans; [apply Permutation_sym, PS|exact P]).
  assert (HB : forall c l, In c sorted -> In l (b_lines c) -> ln_bool l = true) by (intros c0 l0 H1 H2; apply normal_bool; eapply NS; eassumption).
  assert (PLs : Permutation (lines_in sorted) (lines_in ts ++ lines_in fs)) by (rewrite <- lines_in_app; unfold lines_in; apply Permutation_flat_map, PT).
  assert (Prop_ : forall l, In l (lines_in sorted) -> proper (ln_bbox l)) by (intros l Hl; apply in_flat_map in Hl; destruct Hl as (c & Hc & Hl); apply (NS c l Hc Hl)).
  (* what floats is not among ts *)
  assert (NF : forall c, In c (flat_map (item_at sorted) M) -> ~ In c ts).
  { intros c Hc Ht. pose proof (I c Hc) as Ic. assert (Hk : exists k, In k M /\ nth_error sorted k = Some c).
    { apply in_flat_map in Hc. destruct Hc as (k & Hk & Hc). exists k. split; [exact Hk|]. unfold item_at in Hc. destruct (nth_error sorted k); [destruct Hc as [->|[]]; reflexivity|destruct Hc]. }
    assert (Wc : wrapped_image c) by (rewrite Forall_forall in Pa; apply (Pa c (in_or_app _ _ _ (or_introl Ht))); exact Ic). destruct Wc as (l & k0 & q0 & El & _).
    rewrite EM in Hk. destruct (floats_linked order gap sorted gs Ho HB G c l Hk El) as (i & j & l' & Nij & Lk & Ei & Ej).
    assert (Ht' : In l (lines_in ts)) by (apply in_flat_map; exists c; split; [exact Ht|rewrite El; left; reflexivity]).
    assert (Ap : ry1 (ln_bbox l) <= ry0 (ln_bbox l') \/ ry1 (ln_bbox l') <= ry0 (ln_bbox l)).
    { destruct (two_positions _ i j l l' Nij Ei Ej) as (rest & PR). apply (Permutation_trans (Permutation_sym PLs)) in PR. apply perm_two in PR. destruct PR as [(r0 & PR)|[(_ & Hl')|Hl]].
      - exact (sorted_two (lines_in ts) l l' r0 Td PR).
      - apply in_flat_map in Hl'. destruct Hl' as (f & Hf & Hl'). apply (Cl c l f l' Ht Ic); [rewrite El; left; reflexivity|exact Hf|exact Hl'].
      - exfalso. apply in_flat_map in Hl. destruct Hl as (f & Hf & Hl). pose proof (Cl c l f l Ht Ic ltac:(rewrite El; left; reflexivity) Hf Hl) as X. destruct (Prop_ l (nth_error_In _ _ Ei)) as (_ & Y). destruct X; lra. }
    destruct (Prop_ l (nth_error_In _ _ Ei)) as (_ & Y1), (Prop_ l' (nth_error_In _ _ Ej)) as (_ & Y2).
    assert (Nt : forall p q u v, nth_error (lines_in sorted) p = Some u -> nth_error (lines_in sorted) q = Some v -> In (p, q) (report (map (shrunk gap) (lines_in sorted))) ->
      (ry0 (ln_bbox u) <= ry0 (ln_bbox v) /\ ry0 (ln_bbox v) + 2 * gap < ry1 (ln_bbox u)) \/ (ry0 (ln_bbox v) <= ry0 (ln_bbox u) /\ ry0 (ln_bbox u) + 2 * gap < ry1 (ln_bbox v))).
    { intros p q u v Eu Ev R. destruct (report_heights _ _ R) as (x & y & Ex & Ey & Tc). cbn [fst snd] in *. rewrite nth_error_map, Eu in Ex. rewrite nth_error_map, Ev in Ey. cbn in Ex, Ey. injection Ex as <-. injection Ey as <-.
      unfold shrunk, widen, rplus in Tc. cbn [ry0 ry1] in Tc. destruct Tc as [T3|T3]; [left|right]; lra. }
    destruct Lk as [Lk|Lk]; [pose proof (Nt _ _ _ _ Ei Ej Lk) as X|pose proof (Nt _ _ _ _ Ej Ei Lk) as X]; destruct X as [(X1 & X2)|(X1 & X2)], Ap; lra. }
  (* what lies on something floats *)
  assert (YF : forall c, In c (staying M sorted) -> ~ In c fs).
  { intros c Hc Hf. unfold staying in Hc. apply in_flat_map in Hc. destruct Hc as (k & Hk & Hc). apply filter_In in Hk. destruct Hk as (_ & Hk). apply negb_true_iff in Hk. unfold item_at in Hc. destruct (nth_error sorted k) as [c'|] eqn:Ek; [|destruct Hc]. destruct Hc as [->|[]].
    assert (Hin : In k M); [|apply memb_In in Hin; congruence].
    destruct (On c Hf) as (Ib & l & fs' & o & El & Pf & Hother & Ov & Side).
    apply nth_error_split in Ek. destruct Ek as (s1 & s2 & Es12 & Lk). subst k.
    assert (PO' : Permutation (ts ++ fs') (s1 ++ s2)).
    { apply Permutation_cons_app_inv with c. rewrite <- Es12. eapply Permutation_trans; [|apply Permutation_sym, PT]. eapply Permutation_trans; [apply Permutation_middle|]. apply Permutation_app_head, Permutation_sym, Pf. }
    assert (Hot : In o (lines_in s1) \/ In o (lines_in s2)).
    { apply in_app_or. rewrite <- lines_in_app. eapply Permutation_in; [|exact Hother]. unfold lines_in. apply Permutation_flat_map. exact PO'. }
    set (i := length (lines_in s1)). assert (Ll : lines_in sorted = lines_in s1 ++ l :: lines_in s2).
    { rewrite Es12, lines_in_app. f_equal. unfold lines_in. cbn [flat_map]. rewrite El. reflexivity. }
    assert (Ei : nth_error (lines_in sorted) i = Some l) by (rewrite Ll, nth_error_app2, Nat.sub_diag by (unfold i; lia); reflexivity).
    assert (Hj : exists j, j <> i /\ nth_error (lines_in sorted) j = Some o).
    { rewrite Ll. destruct Hot as [H|H]; apply In_nth_error in H; destruct H as (n & Hn).
      - assert (n < length (lines_in s1))%nat by (apply nth_error_Some; congruence). exists n. split; [unfold i; lia|]. rewrite nth_error_app1 by assumption. exact Hn.
      - exists (i + S n)%nat. split; [lia|]. rewrite nth_error_app2 by (unfold i; lia). replace (i + S n - length (lines_in s1))%nat with (S n) by (unfold i; lia). exact Hn. }
    destruct Hj as (j & Nji & Ej).
    assert (En : nth_error (numbered 0 sorted) i = Some (length s1, l)).
    { rewrite Es12, numbered_app. cbn [numbered Nat.add]. rewrite El.
      assert (L1 : length (numbered 0 s1) = i). { unfold i. rewrite <- (numbered_lines s1) with (k := 0%nat); [rewrite map_length; reflexivity|]. intros c0 l0 H1 H2. apply HB with c0; [rewrite Es12; apply in_or_app; left; exact H1|exact H2]. }
      rewrite nth_error_app2 by lia. rewrite L1, Nat.sub_diag. cbn [filter]. rewrite (HB c l); [reflexivity| |rewrite El; left; reflexivity]. rewrite Es12. apply in_or_app. right. left. reflexivity. }
    assert (Ek : nth_error sorted (length s1) = Some c) by (rewrite Es12, nth_error_app2, Nat.sub_diag by lia; reflexivity).
    rewrite EM. apply (linked_floats order gap sorted gs Ho HB G c l i j (length s1) Ek Ib En (not_eq_sym Nji)).
    assert (Nf : fs <> []) by (intros Z; rewrite Z in Hf; destruct Hf). specialize (Wd Nf).
    assert (PLs' : Permutation (lines_in (ts ++ fs)) (lines_in sorted)) by (rewrite lines_in_app; apply Permutation_sym, PLs).
    assert (Alone : forall p u, nth_error (lines_in sorted) p = Some u -> starts_alone gap (lines_in (ts ++ fs)) u -> clear_left (map (shrunk gap) (lines_in sorted)) p (shrunk gap u)).
    { intros p u Eu Sa. left. intros q b Nq Eb. rewrite nth_error_map in Eb. destruct (nth_error (lines_in sorted) q) as [v|] eqn:Ev; [|discriminate Eb]. injection Eb as <-.
      destruct (two_positions _ p q u v (not_eq_sym Nq) Eu Ev) as (rest & PR). destruct (Sa (v :: rest) v (Permutation_trans PLs' PR) (or_introl eq_refl)) as (A & B).
      unfold shrunk, widen, rplus. cbn [rx0 rx1]. split; intros Z; [apply A|apply B]; lra. }
    apply (report_complete (map (shrunk gap) (lines_in sorted)) i j (shrunk gap l) (shrunk gap o)).
    - intros x Hx. apply in_map_iff in Hx. destruct Hx as (y & <- & Hy). specialize (Wd y (Permutation_in _ (Permutation_sym PLs') Hy)). unfold shrunk, widen, rplus. cbn [rx0 rx1]. lra.
    - exact (not_eq_sym Nji).
    - rewrite nth_error_map, Ei. reflexivity.
    - rewrite nth_error_map, Ej. reflexivity.
    - unfold inner_overlap, inner in Ov. cbn [rx0 rx1 ry0 ry1] in Ov. unfold overlap_open, shrunk, widen, rplus. cbn [rx0 rx1 ry0 ry1]. repeat split; lra.
    - intros Le. destruct Side as [(_ & Sa)|(Lt & _)]; [exact (Alone i l Ei Sa)|exfalso; unfold shrunk, widen, rplus in Le; cbn [rx0] in Le; lra].
    - intros Le. destruct Side as [(Lt & _)|(_ & Sa)]; [exfalso; unfold shrunk, widen, rplus in Le; cbn [rx0] in Le; lra|exact (Alone j o Ej Sa)]. }
  assert (InS : forall c, In c (flat_map (item_at sorted) M) \/ In c (staying M sorted) -> In c (ts ++ fs)).
  { intros c Hc. eapply Permutation_in; [exact PT|]. eapply Permutation_in; [apply Permutation_sym, SP|]. apply in_or_app. exact Hc. }
  destruct (perm_parts (fun c => In c ts) ts (flat_map (item_at sorted) M) (staying M sorted) fs) as (PR & PF).
  { eapply Permutation_trans; [apply Permutation_sym, SP|exact PT]. }
  { exact NF. }
  { intros c Hc. destruct (in_app_or _ _ _ (InS c (or_intror Hc))) as [H|H]; [exact H|exfalso; exact (YF c Hc H)]. }
  { intros c Hc. exact Hc. }
  { intros c Hf Ht. assert (Hs : In c (flat_map (item_at sorted) M ++ staying M sorted)) by (eapply Permutation_in; [exact SP|]; eapply Permutation_in; [apply Permutation_sym, PT|]; apply in_or_app; left; exact Ht).
    apply in_app_or in Hs. destruct Hs as [Hs|Hs]; [exact (NF c Hs Ht)|exact (YF c Hs Hf)]. }
  exists (flat_map (item_at sorted) M), out. split; [exact CU|]. split; [exact PF|].
  assert (Fl : forall c l, In c (staying M sorted) -> In l (b_lines c) -> flat_line l).
  { intros c l Hc Hl. rewrite Forall_forall in Pa. destruct (Pa c (InS c (or_intror Hc))) as (_ & _ & _ & _ & H). exact (H l Hl). }
  unfold join_horizontally in J. destruct (group_perm side_by_side order Ho (clear_all M 0 sorted)) as (gr & Eg & Pgr). rewrite Eg in J. injection J as <-.
  assert (Pst : Permutation (concat (map (filter b_bool) gr)) (staying M sorted)) by (rewrite <- FB, concat_filter; apply Permutation_filter', Pgr).
  destruct (joined_lines thr merging (map (filter b_bool) gr) T) as [J1 J2].
  - intros b Hb. assert (Hs : In b (staying M sorted)) by (eapply Permutation_in; [exact Pst|exact Hb]). split; [rewrite <- FB in Hs; apply filter_In in Hs; apply Hs|intros l; apply Fl, Hs].
  - intros g Hg. destruct (concat_part _ g Hg) as (rest & Pr). destruct (sub_sorted beneath (lines_in ts) (lines_in g) (lines_in rest)) as (s & A & B); [|exact Td|exists s; split; assumption].
    rewrite <- lines_in_app. unfold lines_in. apply Permutation_flat_map. eapply Permutation_trans; [apply Permutation_sym, PR|]. eapply Permutation_trans; [apply Permutation_sym, Pst|exact Pr].
  - rewrite joined_filter in J1, J2. split; [|split].
    + eapply Permutation_trans; [exact J1|]. unfold lines_in. apply Permutation_flat_map. eapply Permutation_trans; [exact Pst|exact PR].
    + exact J2.
    + apply (C60_stacked order (page_box r) gap thr merging (r_blocks r) (r_blocks r) [] (map image_of (flat_map (item_at sorted) M)) _ Ho T Pg); [|exact CU]. intros b Hb. exact (proj1 (proj2 (Pt b Hb))).
Qed.
(** Lines and blocks of a page of paragraphs after the clean-up. *)
Lemma clean_paragraphs order gap thr merging r ts : (forall l, Permutation l (order l)) -> 1 # 1000000 < thr -> paragraph_page r ts ->
  exists out, clean_up order (page_box r) gap thr merging (r_blocks r) = Some ([], out) /\ Permutation (lines_in out) (lines_in ts) /\
    (forall b, In b out -> b_img b = false /\ box (b_bbox b) /\ b_lines b <> [] /\ StronglySorted beneath (b_lines b) /\ exists m, b_bbox b = hull m /\ forall l, In l m <-> In l (b_lines b)) /\
    (forall a b rest, Permutation out (a :: b :: rest) -> ~ beside (b_bbox a) (b_bbox b)).
Proof.
  intros Ho T (_ & Pp & K & P & Pa & _ & Td). apply top_down_lines in Td.
  assert (Pt : forall b, In b (r_blocks r) -> paragraph (block_strip b)).
  { intros b Hb. rewrite Forall_forall in Pa. apply Pa. eapply Permutation_in; [exact P|]. apply in_map, Hb. }
  assert (Im : forall b, In b (r_blocks r) -> b_img b = true -> wrapped_image b) by (intros b Hb E; destruct (K b Hb) as (_ & _ & E'); congruence).
  assert (Nl : forall b l, In b (r_blocks r) -> In l (b_lines b) -> normal_line (stripped l)).
  { intros b l Hb Hl. destruct (Pt b Hb) as (_ & _ & _ & _ & H). apply H. rewrite strip_lines. apply in_map, Hl. }
  assert (Pg : page_of (page_box r) (r_blocks r) (r_blocks r) []).
  { split; [exact Pp|]. split; [intros b Hb; apply (K b Hb)|]. split; [exact Im|]. split; [rewrite app_nil_r; apply Permutation_refl|]. split; [intros b Hb; apply (K b Hb)|]. split; [intros b []|exact Nl]. }
  destruct (clean_steps order (page_box r) gap thr merging (r_blocks r) (r_blocks r) [] Ho Pp (fun b Hb => proj1 (K b Hb)) Im T) as (sorted & gs & M & out & PS & _ & EM & CU & J & FB & SP & I & TS & NS & Back);
    [rewrite app_nil_r; apply Permutation_refl|intros b Hb; apply (K b Hb)|intros b []|exact Nl|].
  assert (M0 : M = []).
  { destruct M as [|k M]; [reflexivity|]. exfalso. assert (Hk : In k (met (numbered 0 sorted) sorted (concat (filter (fun g => Nat.ltb 1 (List.length g)) gs)))) by (rewrite <- EM; left; reflexivity).
    apply met_In in Hk. destruct Hk as (i & l & b & _ & _ & E & Ib). apply nth_error_In in E. destruct (Back b E) as (b0 & Hb & _ & ->). destruct (K b0 Hb) as (_ & _ & E'). rewrite img_strip in Ib. congruence. }
  subst M. rewrite M0 in CU, J, FB. rewrite clear_none in J, FB. cbn [flat_map map] in CU. clear M0 I SP FB.
  exists out. split; [exact CU|].
  assert (Fl : forall c l, In c sorted -> In l (b_lines c) -> flat_line l).
  { intros c l Hc Hl. destruct (Back c Hc) as (b & Hb & _ & ->). destruct (Pt b Hb) as (_ & _ & _ & _ & H). exact (H l Hl). }
  assert (PL : Permutation (lines_in sorted) (lines_in ts)).
  { unfold lines_in. apply Permutation_flat_map. eapply Permutation_trans; [apply Permutation_sym, PS|exact P]. }
  unfold join_horizontally in J. destruct (group_perm side_by_side order Ho sorted) as (gr & Eg & Pgr). rewrite Eg in J. injection J as <-.
  destruct (joined_lines thr merging gr T) as [J1 J2].
  - intros b Hb. assert (Hs : In b sorted) by (eapply Permutation_in; [exact Pgr|exact Hb]). split; [apply TS, Hs|intros l; apply Fl, Hs].
  - intros g Hg. destruct (concat_part gr g Hg) as (rest & Pr). destruct (sub_sorted beneath (lines_in ts) (lines_in g) (lines_in rest)) as (s & A & B); [|exact Td|exists s; split; assumption].
    rewrite <- lines_in_app. eapply Permutation_trans; [apply Permutation_sym, PL|]. unfold lines_in. apply Permutation_flat_map. eapply Permutation_trans; [apply Permutation_sym, Pgr|exact Pr].
  - split; [|split].
    + eapply Permutation_trans; [exact J1|]. eapply Permutation_trans; [|exact PL]. unfold lines_in. apply Permutation_flat_map. exact Pgr.
    + exact J2.
    + apply (C60_stacked order (page_box r) gap thr merging (r_blocks r) (r_blocks r) [] [] _ Ho T Pg); [|exact CU]. intros b Hb. exact (proj1 (proj2 (Pt b Hb))).
Qed.
