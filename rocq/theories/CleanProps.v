(** C60: cleaning up a page. *)
From Verif Require Import GeomProof AssignSpec AssignProof InterSpec InterProof GraphProof BorderProof3 TextProof CleanSpec CleanProof CleanProof2 CleanProof3.
From Coq Require Import Lia Lqa Permutation.
Open Scope Q_scope.

Definition line_seen (l : line) : list seen := flat_map seen_of (glyphs (ln_spans l)).
(** C60: everything to be seen in the blocks to keep is afterwards, exactly once, in a text
    block or among the floating images, or was in a line that overlapped another one and is
    gone; of the blocks not to keep nothing is left. *)
Theorem C60_accounted : forall order page gap thr merging bs keep drop, (forall l, Permutation l (order l)) -> 1 # 1000000 < thr -> page_of page bs keep drop ->
  exists fl out lost, clean_up order page gap thr merging bs = Some (fl, out) /\
    Permutation (seen_in keep) (seen_in out ++ seen_floating fl ++ flat_map line_seen lost) /\
    (forall l, In l lost -> overlaps_another thr (lines_in (map block_strip keep)) l) /\
    (forall b, In b out -> b_img b = false /\ b_lines b <> []).
Proof.
  intros order page gap thr merging bs keep drop Ho T (Pp & Pb & Wi & P & K & D & N).
  destruct (clean_split order page gap thr merging bs keep drop Ho Pp Pb Wi T P K D N) as (fl & out & fg & fw & lost & CU & SP & -> & I & S & L & O).
  exists (map image_of fg), out, lost. split; [exact CU|].
  assert (WF : forall b, In b fg -> wrapped_image b).
  { intros b Hb. assert (Hc : In b (map block_strip keep)) by (eapply Permutation_in; [apply Permutation_sym; exact SP|]; apply in_or_app; left; exact Hb).
    apply in_map_iff in Hc. destruct Hc as (c & <- & Hc). apply wrapped_strip. apply Wi; [eapply Permutation_in; [apply Permutation_sym; exact P|]; apply in_or_app; left; exact Hc|]. exact (I _ Hb). }
  split; [|split].
  - rewrite <- strip_seen_in. rewrite (seen_images fg WF), !seen_in_spans.
    assert (E : flat_map line_seen lost = seen_spans (flat_map ln_spans lost)).
    { clear. induction lost as [|l t IH]; [reflexivity|]. cbn [flat_map]. rewrite seen_spans_app, IH. reflexivity. }
    rewrite E. eapply Permutation_trans; [apply seen_perm; unfold spans_in, lines_in; apply Permutation_flat_map, Permutation_flat_map; exact SP|].
    fold (lines_in (fg ++ fw)). fold (spans_in (fg ++ fw)). rewrite spans_in_app, seen_spans_app.
    eapply Permutation_trans; [apply Permutation_app_head; apply seen_perm; exact S|]. rewrite seen_spans_app, !app_assoc. apply Permutation_app_tail. apply Permutation_app_comm.
  - intros l Hl. destruct (L l Hl) as [_ B]. eapply overlaps_perm; [apply Permutation_sym; unfold lines_in; apply Permutation_flat_map; exact SP|].
    rewrite flat_map_app. eapply overlaps_perm; [apply Permutation_app_comm|]. apply overlaps_more. exact B.
  - intros b Hb. destruct (O b Hb) as [A B]. split; [exact A|].
    destruct (clean_steps order page gap thr merging bs keep drop Ho Pp Pb Wi T P K D N) as (sorted & gs & M & out' & _ & _ & _ & CU' & J & FB & SP' & _ & _ & NS & _).
    rewrite CU in CU'. injection CU' as _ <-. unfold join_horizontally in J. destruct (group_perm side_by_side order Ho (clear_all M 0 sorted)) as (gr & Eg & Pg). rewrite Eg in J. injection J as <-.
    apply filter_In in Hb. destruct Hb as [Hb _]. apply in_map_iff in Hb. destruct Hb as (g & <- & Hg).
    assert (Ng : forall b l, In b g -> b_bool b = true -> In l (b_lines b) -> normal_line l).
    { intros b l Hb Tb Hl. assert (Hc : In b (filter b_bool (clear_all M 0 sorted))) by (apply filter_In; split; [eapply Permutation_in; [exact Pg|]; apply in_concat; eauto|exact Tb]).
      rewrite FB in Hc. eapply NS; [|exact Hl]. eapply Permutation_in; [apply Permutation_sym; exact SP'|]. apply in_or_app. right. exact Hc. }
    destruct (joined_truthy thr merging g Ng) as [J1 J2]. rewrite B in J1. rewrite J2.
    assert (NL : forall l, In l (lines_in (filter b_bool g)) -> normal_line l).
    { intros l Hl. apply in_flat_map in Hl. destruct Hl as (c & Hc & Hl). apply filter_In in Hc. eapply Ng; [apply Hc|apply Hc|exact Hl]. }
    destruct (lines_sort (lines_in (filter b_bool g))) as [|l0 rest] eqn:E.
    { assert (Z : lines_in (filter b_bool g) = []) by (apply Permutation_nil; rewrite <- E; apply Permutation_sym, lines_sort_perm). rewrite Z in J1. discriminate. }
    destruct (TextProps.C25_join thr merging _ l0 rest T NL E) as (kept & groups & _ & C & F & _). intros Z. rewrite Z in F. inversion F as [E0|]. subst groups. discriminate.
Qed.
Print Assumptions C60_accounted.
(** C60: if no two lines overlap, nothing is lost. *)
Theorem C60_conserved : forall order page gap thr merging bs keep drop, (forall l, Permutation l (order l)) -> 1 # 1000000 < thr -> page_of page bs keep drop ->
  no_overlaps thr (lines_in (map block_strip keep)) ->
  exists fl out, clean_up order page gap thr merging bs = Some (fl, out) /\ Permutation (seen_in keep) (seen_in out ++ seen_floating fl).
Proof.
  intros order page gap thr merging bs keep drop Ho T H N. destruct (C60_accounted order page gap thr merging bs keep drop Ho T H) as (fl & out & lost & CU & S & L & _).
  exists fl, out. split; [exact CU|]. destruct lost as [|l t]; [cbn [flat_map] in S; rewrite app_nil_r in S; exact S|]. exfalso. apply (N l). apply L. left. reflexivity.
Qed.
Print Assumptions C60_conserved.
Lemma strip_image l k r : ln_spans l = [SImage k r] -> stripped l = l.
Proof. intros E. unfold stripped, line_strip. rewrite E. cbn. destruct l. cbn in *. subst. reflexivity. Qed.
Lemma inner_shrunk gap l : widen (- gap) (- gap) (ln_bbox l) = shrunk gap l.
Proof. reflexivity. Qed.
(** C60: what floats is an image to keep, with its box; and (if every line is at least twice
    the gap wide) it lies on, or under, another line by more than the gap. *)
Theorem C60_floating : forall order page gap thr merging bs keep drop fl out, (forall l, Permutation l (order l)) -> 1 # 1000000 < thr -> page_of page bs keep drop ->
  clean_up order page gap thr merging bs = Some (fl, out) ->
  forall f, In f fl -> exists b l k r, In b keep /\ b_img b = true /\ b_lines b = [l] /\ ln_spans l = [SImage k r] /\ f = Some (k, rround r) /\
    ((forall x, In x (lines_in (map block_strip keep)) -> 2 * gap <= rx1 (ln_bbox x) - rx0 (ln_bbox x)) ->
     exists other rest, Permutation (lines_in (map block_strip keep)) (l :: other :: rest) /\ sits_on gap l other).
Proof.
  intros order page gap thr merging bs keep drop fl out Ho T (Pp & Pb & Wi & P & K & D & N) CU f Hf.
  destruct (clean_steps order page gap thr merging bs keep drop Ho Pp Pb Wi T P K D N) as (sorted & gs & M & out' & PS & G & EM & CU' & _ & _ & SP & I & TS & NS & Back).
  rewrite CU in CU'. injection CU' as -> _. apply in_map_iff in Hf. destruct Hf as (c & <- & Hc).
  assert (Hk : exists k, In k M /\ nth_error sorted k = Some c).
  { apply in_flat_map in Hc. destruct Hc as (k & Hk & Hc). exists k. split; [exact Hk|]. unfold item_at in Hc. destruct (nth_error sorted k); [destruct Hc as [->|[]]; reflexivity|destruct Hc]. }
  pose proof (I c Hc) as Ic. destruct Hk as (kk & Hk & Ek). destruct (Back c (nth_error_In _ _ Ek)) as (b & Hb & Hb' & ->). rewrite img_strip in Ic.
  destruct (Wi b Hb' Ic) as (l & k & r & El & Es). exists b, l, k, r. split; [exact Hb|]. split; [exact Ic|]. split; [exact El|]. split; [exact Es|].
  assert (Els : b_lines (block_strip b) = [l]) by (rewrite strip_lines, El; cbn [map]; rewrite (strip_image l k r Es); reflexivity).
  split; [unfold image_of; rewrite Els, Es; reflexivity|]. intros Wd.
  assert (HB : forall c l, In c sorted -> In l (b_lines c) -> ln_bool l = true) by (intros c0 l0 H1 H2; apply normal_bool; eapply NS; eassumption).
  assert (PL : Permutation (lines_in (map block_strip keep)) (lines_in sorted)) by (unfold lines_in; apply Permutation_flat_map; exact PS).
  rewrite EM in Hk. destruct (floats_linked order gap sorted gs Ho HB G (block_strip b) l (ex_intro _ kk (conj Hk Ek)) Els) as (i & j & l' & Nij & Lk & Ei & Ej).
  exists l'. destruct (two_positions _ i j l l' Nij Ei Ej) as (rest & PR). exists rest. split; [eapply Permutation_trans; [exact PL|exact PR]|].
  assert (V : forall x, In x (map (shrunk gap) (lines_in sorted)) -> rx0 x <= rx1 x).
  { intros x Hx. apply in_map_iff in Hx. destruct Hx as (y & <- & Hy). assert (Hy' : In y (lines_in (map block_strip keep))) by (eapply Permutation_in; [apply Permutation_sym; exact PL|exact Hy]).
    specialize (Wd y Hy'). unfold shrunk, widen, rplus. cbn [rx0 rx1]. lra. }
  assert (Nt : forall p q u v, nth_error (lines_in sorted) p = Some u -> nth_error (lines_in sorted) q = Some v -> In (p, q) (report (map (shrunk gap) (lines_in sorted))) -> sits_on gap u v).
  { intros p q u v Eu Ev R. destruct (report_sound _ _ V R) as (x & y & Ex & Ey & Tc). cbn [fst snd] in *. rewrite nth_error_map, Eu in Ex. rewrite nth_error_map, Ev in Ey. cbn in Ex, Ey. injection Ex as <-. injection Ey as <-.
    unfold touching, shrunk, widen, rplus in Tc. cbn [rx0 rx1 ry0 ry1] in Tc. destruct Tc as (T1 & T2 & T3). unfold sits_on. split; [lra|]. split; [lra|]. destruct T3 as [T3|T3]; [left|right]; lra. }
  destruct Lk as [Lk|Lk]; [eapply Nt; eassumption|]. destruct (Nt _ _ _ _ Ej Ei Lk) as (A1 & A2 & A3). unfold sits_on. tauto.
Qed.
Print Assumptions C60_floating.
Lemma numbered_app a : forall k b, numbered k (a ++ b) = numbered k a ++ numbered (k + length a) b.
Proof. induction a as [|x t IH]; intros k b; cbn [app numbered length]; [rewrite Nat.add_0_r; reflexivity|]. rewrite IH, <- app_assoc, Nat.add_succ_r. reflexivity. Qed.
(** C60: conversely an image that overlaps a line of another block by more than the gap
    floats, provided the lines are larger than twice the gap and left edges are in general
    position (text starting exactly at the left edge of the image is the defect of C16). *)
Theorem C60_overlapping_floats : forall order page gap thr merging bs keep drop fl out, (forall l, Permutation l (order l)) -> 1 # 1000000 < thr -> page_of page bs keep drop ->
  clean_up order page gap thr merging bs = Some (fl, out) ->
  (forall x, In x (lines_in (map block_strip keep)) -> 2 * gap < rx1 (ln_bbox x) - rx0 (ln_bbox x)) ->
  (forall x y rest, Permutation (lines_in (map block_strip keep)) (x :: y :: rest) -> ~ rx0 (inner gap x) == rx0 (inner gap y) /\ ~ rx0 (inner gap x) == rx1 (inner gap y)) ->
  forall b others l k r other, Permutation keep (b :: others) -> b_img b = true -> b_lines b = [l] -> ln_spans l = [SImage k r] ->
  In other (lines_in (map block_strip others)) -> inner_overlap gap l other -> In (Some (k, rround r)) fl.
Proof.
  intros order page gap thr merging bs keep drop fl out Ho T (Pp & Pb & Wi & P & K & D & N) CU Wd Ed b others l k r other PO Ib El Es Hother Ov.
  destruct (clean_steps order page gap thr merging bs keep drop Ho Pp Pb Wi T P K D N) as (sorted & gs & M & out' & PS & G & EM & CU' & _ & _ & SP & I & TS & NS & Back).
  rewrite CU in CU'. injection CU' as -> _.
  assert (HB : forall c l, In c sorted -> In l (b_lines c) -> ln_bool l = true) by (intros c0 l0 H1 H2; apply normal_bool; eapply NS; eassumption).
  assert (PL : Permutation (lines_in (map block_strip keep)) (lines_in sorted)) by (unfold lines_in; apply Permutation_flat_map; exact PS).
  assert (Els : b_lines (block_strip b) = [l]) by (rewrite strip_lines, El; cbn [map]; rewrite (strip_image l k r Es); reflexivity).
  assert (PB : Permutation (block_strip b :: map block_strip others) sorted) by (eapply Permutation_trans; [apply Permutation_sym; apply (Permutation_map block_strip) in PO; exact PO|exact PS]).
  assert (Hs : In (block_strip b) sorted) by (eapply Permutation_in; [exact PB|left; reflexivity]). apply in_split in Hs. destruct Hs as (s1 & s2 & Es12).
  assert (PO' : Permutation (map block_strip others) (s1 ++ s2)) by (apply Permutation_cons_app_inv with (block_strip b); rewrite <- Es12; exact PB).
  assert (Hot : In other (lines_in s1) \/ In other (lines_in s2)).
  { apply in_app_or. rewrite <- lines_in_app. eapply Permutation_in; [|exact Hother]. unfold lines_in. apply Permutation_flat_map. exact PO'. }
  set (i := length (lines_in s1)). assert (Ll : lines_in sorted = lines_in s1 ++ l :: lines_in s2).
  { rewrite Es12, lines_in_app. f_equal. unfold lines_in. cbn [flat_map]. rewrite Els. reflexivity. }
  assert (Ei : nth_error (lines_in sorted) i = Some l) by (rewrite Ll, nth_error_app2, Nat.sub_diag by (unfold i; lia); reflexivity).
  assert (Hj : exists j, j <> i /\ nth_error (lines_in sorted) j = Some other).
  { rewrite Ll. destruct Hot as [H|H]; apply In_nth_error in H; destruct H as (n & Hn).
    - assert (n < length (lines_in s1))%nat by (apply nth_error_Some; congruence). exists n. split; [unfold i; lia|]. rewrite nth_error_app1 by assumption. exact Hn.
    - exists (i + S n)%nat. split; [lia|]. rewrite nth_error_app2 by (unfold i; lia). replace (i + S n - length (lines_in s1))%nat with (S n) by (unfold i; lia). exact Hn. }
  destruct Hj as (j & Nji & Ej).
  assert (En : nth_error (numbered 0 sorted) i = Some (length s1, l)).
  { rewrite Es12, numbered_app. cbn [numbered Nat.add]. rewrite Els.
    assert (L1 : length (numbered 0 s1) = i). { unfold i. rewrite <- (numbered_lines s1) with (k := 0%nat); [rewrite map_length; reflexivity|]. intros c0 l0 H1 H2. apply HB with c0; [rewrite Es12; apply in_or_app; left; exact H1|exact H2]. }
    rewrite nth_error_app2 by lia. rewrite L1, Nat.sub_diag. cbn [filter]. rewrite (HB (block_strip b) l); [reflexivity| |rewrite Els; left; reflexivity]. rewrite Es12. apply in_or_app. right. left. reflexivity. }
  assert (Ek : nth_error sorted (length s1) = Some (block_strip b)) by (rewrite Es12, nth_error_app2, Nat.sub_diag by lia; reflexivity).
  apply in_map_iff. exists (block_strip b). split; [unfold image_of; rewrite Els, Es; reflexivity|]. apply in_flat_map. exists (length s1). split; [|unfold item_at; rewrite Ek; left; reflexivity].
  rewrite EM. apply (linked_floats order gap sorted gs Ho HB G (block_strip b) l i j (length s1) Ek Ib En (not_eq_sym Nji)).
  apply (report_complete_distinct _ i j (shrunk gap l) (shrunk gap other)).
  - intros x Hx. apply in_map_iff in Hx. destruct Hx as (y & <- & Hy). assert (Hy' : In y (lines_in (map block_strip keep))) by (eapply Permutation_in; [apply Permutation_sym; exact PL|exact Hy]).
    specialize (Wd y Hy'). unfold shrunk, widen, rplus. cbn [rx0 rx1]. lra.
  - intros p q x y Npq Ex Ey. rewrite nth_error_map in Ex, Ey. destruct (nth_error (lines_in sorted) p) as [u|] eqn:Eu; [|discriminate]. destruct (nth_error (lines_in sorted) q) as [v|] eqn:Ev; [|discriminate].
    cbn in Ex, Ey. injection Ex as <-. injection Ey as <-. destruct (two_positions _ p q u v Npq Eu Ev) as (rest & PR).
    destruct (Ed u v rest) as [A B]; [eapply Permutation_trans; [exact PL|exact PR]|]. unfold inner in A, B. cbn [rx0 rx1] in A, B. unfold shrunk, widen, rplus. cbn [rx0 rx1]. split; intros Z; [apply A|apply B]; lra.
  - exact (not_eq_sym Nji).
  - rewrite nth_error_map, Ei. reflexivity.
  - rewrite nth_error_map, Ej. reflexivity.
  - unfold inner_overlap, inner in Ov. cbn [rx0 rx1 ry0 ry1] in Ov. unfold overlap_open, shrunk, widen, rplus. cbn [rx0 rx1 ry0 ry1]. repeat split; lra.
Qed.
Print Assumptions C60_overlapping_floats.
(** C60: the text blocks left are one below the other: no two share a height. *)
Theorem C60_stacked : forall order page gap thr merging bs keep drop fl out, (forall l, Permutation l (order l)) -> 1 # 1000000 < thr -> page_of page bs keep drop ->
  (forall b, In b keep -> nested (block_strip b)) -> clean_up order page gap thr merging bs = Some (fl, out) ->
  forall a b rest, Permutation out (a :: b :: rest) -> ~ beside (b_bbox a) (b_bbox b).
Proof.
  intros order page gap thr merging bs keep drop fl out Ho T (Pp & Pb & Wi & P & K & D & N) Hn CU a b rest PR.
  destruct (clean_steps order page gap thr merging bs keep drop Ho Pp Pb Wi T P K D N) as (sorted & gs & M & out' & PS & G & EM & CU' & J & FB & SP & I & TS & NS & Back).
  rewrite CU in CU'. injection CU' as _ <-.
  assert (S : pairwise (fun a b => ry1 (b_bbox a) < ry0 (b_bbox b) \/ ry1 (b_bbox b) < ry0 (b_bbox a)) out).
  { apply (join_stacked order thr merging (clear_all M 0 sorted) out Ho); [|exact J]. intros c Hc Tc.
    assert (Hc' : In c sorted) by (eapply Permutation_in; [apply Permutation_sym; exact SP|]; apply in_or_app; right; rewrite <- FB; apply filter_In; auto).
    destruct (Back c Hc') as (b0 & Hb0 & _ & ->). destruct (Hn b0 Hb0) as (Dd & Pd & Hl). split; [split; assumption|]. intros l Hl'. split; [apply (NS (block_strip b0)); assumption|]. exact (Hl l Hl'). }
  assert (S' : pairwise (fun a b => ry1 (b_bbox a) < ry0 (b_bbox b) \/ ry1 (b_bbox b) < ry0 (b_bbox a)) (a :: b :: rest)).
  { eapply pairwise_perm; [|exact PR|exact S]. intros x y [H|H]; [right|left]; exact H. }
  inversion S' as [|? ? H1 _]. subst. specialize (H1 b (or_introl eq_refl)). intros (y & Y1 & Y2). destruct H1; lra.
Qed.
Print Assumptions C60_stacked.

(** An example page: two texts beside each other, one of them with redundant blanks and under
    an image; an image of its own; blanks; a text off the page. *)
Definition ex_span (c : Z) (r : rect) : span := SText (mkTspan [mkChar c r] r [] (mkAttrs 0 12 0 0)).
Definition ex_text (c : Z) (r : rect) : tblock := mkBlk false r [mkLine r LEFT_RIGHT [ex_span c r] None false].
Definition ex_image (k : nat) (r : rect) : tblock := mkBlk true r [mkLine r LEFT_RIGHT [SImage k r] None false].
Definition ex_page : rect := mkRect 0 0 600 800.
Definition ex_keep : list tblock := [ex_text 65 (mkRect 100 100 200 120); ex_text 66 (mkRect 400 105 500 125); ex_image 1 (mkRect 150 90 300 200); ex_image 2 (mkRect 50 300 80 330)].
Definition ex_drop : list tblock := [ex_text 32 (mkRect 10 10 20 20); ex_text 67 (mkRect 700 10 720 20)].
Lemma normal_ex l : stripped l = l -> proper (ln_bbox l) -> rect_decimal (ln_bbox l) -> (forall s, In s (ln_spans l) -> span_bbox s = ln_bbox l) -> normal_line (stripped l).
Proof. intros -> P D H. split; [exact P|]. split; [exact D|]. intros s Hs. unfold span_bool. rewrite (H s Hs). split; [destruct P; split; lra|]. split; [exact D|apply proper_truthy; exact P]. Qed.
Lemma int_box a b c d : rect_decimal (mkRect (inject_Z a) (inject_Z b) (inject_Z c) (inject_Z d)).
Proof. assert (H : forall z, decimal 10 (inject_Z z)) by (intros z; exists (z * 10)%Z; rewrite inject_Z_mult; field). repeat split; apply H. Qed.
Example C60_ex_page : page_of ex_page (ex_drop ++ ex_keep) ex_keep ex_drop.
Proof.
  split; [split; reflexivity|]. split; [intros b Hb; cbn in Hb; repeat (destruct Hb as [<-|Hb]; [split; reflexivity|]); destruct Hb|].
  split; [intros b Hb Hi; cbn in Hb; repeat (destruct Hb as [<-|Hb]; [first [discriminate Hi|eexists _, _, _; split; reflexivity]|]); destruct Hb|].
  split; [apply Permutation_app_comm|].
  split. { intros b Hb; cbn in Hb. repeat (destruct Hb as [<-|Hb]; [split; [cbn; repeat split; reflexivity|split; [eexists; split; [left; reflexivity|first [exact I|reflexivity]]|intros l [<-|[]]; left; reflexivity]]|]). destruct Hb. }
  split. { intros b [<-|[<-|[]]] (A & (g & Hg & V) & _); [cbn in Hg; destruct Hg as [<-|[]]; discriminate V|cbn in A; destruct A as (A & _); discriminate A]. }
  intros b l Hb Hl; cbn in Hb. repeat (destruct Hb as [<-|Hb]; [destruct Hl as [<-|[]]; apply normal_ex; [reflexivity|split; reflexivity|apply int_box|intros s [<-|[]]; reflexivity]|]). destruct Hb.
Qed.
Example C60_ex_run : match clean_up (fun l => l) ex_page 5 (9 # 10) 2 (ex_drop ++ ex_keep) with
  | Some ([Some (1%nat, _)], [a; b]) => seen_in [a] = [SeenChar (mkChar 65 (mkRect 100 100 200 120)) (mkAttrs 0 12 0 0); SeenChar (mkChar 66 (mkRect 400 105 500 125)) (mkAttrs 0 12 0 0)] /\ seen_in [b] = [SeenImage 2]
  | _ => False end.
Proof. vm_compute. split; reflexivity. Qed.
Example C60_ex_hypotheses : (forall b, In b ex_keep -> nested (block_strip b)) /\
  (forall x, In x (lines_in (map block_strip ex_keep)) -> 2 * 5 < rx1 (ln_bbox x) - rx0 (ln_bbox x)).
Proof.
  split.
  - intros b Hb; cbn in Hb. repeat (destruct Hb as [<-|Hb]; [split; [apply int_box|]; split; [split; reflexivity|]; intros l [<-|[]]; split; [apply covers_refl|intros s [<-|[]]; apply covers_refl]|]). destruct Hb.
  - intros x Hx. vm_compute in Hx. repeat (destruct Hx as [<-|Hx]; [reflexivity|]). destruct Hx.
Qed.
Lemma no_pairs thr ls : (forall i j a b, i <> j -> nth_error ls i = Some a -> nth_error ls j = Some b -> area (rinter (ln_bbox b) (ln_bbox a)) == 0) -> no_overlaps thr ls.
Proof.
  intros H l (p & rest & P & (O & _)). destruct (positions_two ls p l rest P) as (i & j & N & E1 & E2). rewrite (H i j p l N E1 E2) in O. lra.
Qed.
(** C60 (finding): of two overlapping lines one is dropped with its text. *)
Theorem C60_overlap_lost_refuted : exists a b, let bs := [a; b] in
  match clean_up (fun l => l) ex_page 5 (9 # 10) 2 bs with Some (fl, out) => seen_in bs = [SeenChar (mkChar 65 (mkRect 100 100 200 120)) (mkAttrs 0 12 0 0); SeenChar (mkChar 66 (mkRect 102 101 198 119)) (mkAttrs 0 12 0 0)] /\
    seen_in out = [SeenChar (mkChar 65 (mkRect 100 100 200 120)) (mkAttrs 0 12 0 0)] /\ fl = [] | None => False end.
Proof. exists (ex_text 65 (mkRect 100 100 200 120)), (ex_text 66 (mkRect 102 101 198 119)). vm_compute. repeat split; reflexivity. Qed.
Print Assumptions C60_overlap_lost_refuted.
(** C60 (finding): whether an image behind a text floats depends on unrelated contents if their
    left edges coincide: here it does not, and the text on it is lost. *)
Theorem C60_shared_left_edge_refuted : exists header image text footer,
  let bs := [header; image; text; footer] in
  b_img image = true /\ seen_in [text] = [SeenChar (mkChar 65 (mkRect 95 100 155 120)) (mkAttrs 0 12 0 0)] /\
  (forall l m, In l (b_lines image) -> In m (b_lines text) -> inner_overlap 5 l m) /\
  match clean_up (fun l => l) ex_page 5 (9 # 10) 2 bs with Some (fl, out) => fl = [] /\ seen_in out = seen_in [header; image; footer] | None => False end /\
  match clean_up (fun l => l) ex_page 5 (9 # 10) 2 [image; text] with Some (fl, out) => fl = map image_of [image] /\ seen_in out = seen_in [text] | None => False end.
Proof.
  exists (ex_text 66 (mkRect 85 20 305 40)), (ex_image 1 (mkRect 95 95 205 300)), (ex_text 65 (mkRect 95 100 155 120)), (ex_text 67 (mkRect 245 400 265 420)).
  cbv zeta. split; [reflexivity|]. split; [reflexivity|]. split; [intros l m [<-|[]] [<-|[]]; repeat split; reflexivity|]. split; vm_compute; split; reflexivity.
Qed.
Print Assumptions C60_shared_left_edge_refuted.
