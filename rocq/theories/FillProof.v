(** Paragraphs in the cells of a table. *)
From Verif Require GeomProof.
From Verif Require Import AssignSpec AssignProof PySort LayoutModel TreeSpec TreeProof TreeProof3 TreeProof5 TreeProps.
From Verif Require Import ParaSpec SpacingSpec.
From Verif Require Import WholeSpec WholeProof WholeProof2 WholeProof4 WholeProof7 PlaceProof2 PlaceProof3 PlaceProof4 TabProof10 TabProof11 FillSpec.
From Verif Require Import GridSpec CleanModel.
From Coq Require Import Lia Lqa Permutation Sorting.Sorted.
Notation length := List.length.
Open Scope Q_scope.

Lemma pt_tenths x z : x == inject_Z z / 10 -> inject_Z (WordModel.pt x) == 12700 * x.
Proof.
  intros H. unfold WordModel.pt. assert (E : 12700 * x == inject_Z (1270 * z)) by (rewrite H, inject_Z_mult; change (inject_Z 1270) with 1270; field).
  rewrite (qtrunc_comp _ _ E), qtrunc_Z. symmetry. exact E.
Qed.
Lemma gap_tenths a b c : exists z, round1 a - round1 b - inject_Z c == inject_Z z / 10.
Proof.
  destruct (round_p_decimal 10 a) as (x & Ex), (round_p_decimal 10 b) as (y & Ey). exists (x - y - 10 * c)%Z. fold (round1 a) in Ex. fold (round1 b) in Ey. rewrite Ex, Ey.
  unfold Zminus. rewrite !inject_Z_plus, !inject_Z_opp, inject_Z_mult. change (inject_Z 10) with 10. field.
Qed.
Lemma height_step hs i m h : nth_error hs (i + m) = Some h -> rows_height hs i (S m) = (rows_height hs i m + h)%Z.
Proof.
  unfold rows_height. revert hs. induction i as [|i IH]; intros hs E.
  - cbn [skipn Nat.add] in *. revert hs E. induction m as [|m IH]; intros [|x hs] E; try discriminate E; cbn [nth_error] in E; [injection E as ->; cbn; lia|]. specialize (IH hs E). cbn [firstn fold_right] in *. lia.
  - destruct hs as [|x hs]; [discriminate E|]. cbn [skipn]. apply IH. exact E.
Qed.
Lemma heights_above g last hs : row_heights g last hs -> forall i m, (i + m <= g_rows g)%nat -> (0 < m)%nat ->
  inject_Z (rows_height hs i m) == 12700 * (round1 (gy g (i + m)) - round1 (gy g i) - loss g last i m).
Proof.
  intros (L & R) i m. induction m as [|m IH]; intros Hm Hp; [lia|].
  destruct (nth_error hs (i + m)) as [h|] eqn:E; [|apply nth_error_None in E; lia]. rewrite (height_step hs i m h E), inject_Z_plus.
  specialize (R _ _ E). cbv zeta in R. replace (i + S m)%nat with (S (i + m)) by lia.
  assert (Hh : inject_Z h == 12700 * (round1 (gy g (S (i + m))) - round1 (gy g (i + m)) - loss g last i (S m))).
  { rewrite R. unfold loss. replace (i + S m)%nat with (S (i + m)) by lia. destruct (last && Nat.eqb (S (i + m)) (g_rows g)).
    - destruct (gap_tenths (gy g (S (i + m))) (gy g (i + m)) 1) as (z & Ez). exact (pt_tenths _ z Ez).
    - destruct (gap_tenths (gy g (S (i + m))) (gy g (i + m)) 0) as (z & Ez). change (inject_Z 0) with 0 in Ez. rewrite (pt_tenths _ z); [ring|]. rewrite <- Ez. ring. }
  rewrite Hh. destruct m as [|m].
  - replace (rows_height hs i 0) with 0%Z by reflexivity. rewrite Nat.add_0_r. change (inject_Z 0) with 0. ring.
  - rewrite IH by lia. unfold loss at 1. assert (X : Nat.eqb (i + S m) (g_rows g) = false) by (apply Nat.eqb_neq; lia). rewrite X, andb_false_r. ring.
Qed.
Lemma stack_part ts t : top_down (map ln_bbox (lines_in ts)) -> In t ts -> paragraph t -> stack (b_lines t).
Proof.
  intros Td Ht (_ & _ & Ne & _ & H). apply top_down_lines in Td. split; [exact Ne|]. split; [exact H|].
  clear - Td Ht. induction ts as [|x ts IH]; [destruct Ht|]. unfold lines_in in Td. cbn [flat_map] in Td. destruct Ht as [->|Ht].
  - clear IH. induction (b_lines t) as [|l ls IH]; [constructor|]. cbn [app] in Td. inversion Td as [|? ? T1 T2]; subst. constructor; [apply IH, T1|]. rewrite Forall_forall in *. intros y Hy. apply T2, in_or_app. left. exact Hy.
  - apply IH; [|exact Ht]. clear IH Ht. induction (b_lines x) as [|l ls IH]; [exact Td|]. cbn [app] in Td. inversion Td; subst. apply IH. assumption.
Qed.
Lemma laid_set order pm area ts ss : (forall l, Permutation l (order l)) -> (forall t, In t ts -> stack (b_lines t)) -> space_layout order pm area (map LText (map para_block ts)) = Some ss ->
  set_in (p_center_aligned pm) (ry0 area) (rx0 area) (rx1 area) ts (flat_map block_par ss).
Proof.
  intros Ho St Es. destruct (set_down order pm area ts ss St Es) as (Ln & Dn). destruct (spaced_as order pm area (map para_block ts) ss Es) as (vs & _ & Sa).
  split; [exact Ln|]. intros k w t Hw Ht. assert (Hin : In t ts) by (eapply nth_error_In, Ht).
  assert (Sk : exists p before after lsp br, parse_horizontal order (hull (b_lines t)) area (text_thresholds pm) (b_lines t) fresh_para = Some p /\ w = make_paragraph (hull (b_lines t)) p before after lsp (b_lines t) br).
  { clear - Sa Hw Ht. revert k ts vs Ht Sa Hw. induction ss as [|s ss IH]; intros k ts vs Ht Sa Hw; inversion Sa as [|u v p br us vs' ss' Ep S' Eu]; subst; [destruct k; discriminate Hw|]. destruct ts as [|x ts]; [discriminate Eu|]. cbn [map] in Eu. injection Eu as Eu1 Eu2. subst u us.
      destruct k as [|k]; [|apply (IH k ts vs' Ht S' Hw)]. injection Ht as ->. cbn [flat_map block_par app nth_error] in Hw. injection Hw as <-. exists p, (v_before v), (v_after v), (v_line v), br. split; [exact Ep|reflexivity]. }
  split; [|split].
  - intros Txt. destruct Sk as (p & before & after & lsp & br & Ep & ->). cbn [make_paragraph wp_exact]. rewrite forallb_forall. intros l Hl. rewrite forallb_forall. intros s Hs. destruct (Txt l s) as (x & ->); [apply in_flat_map; exists t; split; [left; reflexivity|exact Hl]|exact Hs|reflexivity].
  - intros In'. destruct Sk as (p & before & after & lsp & br & Ep & ->). apply (set_across order pm area); [exact Ho|apply St, Hin|exact In'|exact Ep].
  - destruct (Dn k t Ht) as (e & d & He & Hd & K). exists e, (ry1 (hull (b_lines t))), d. split; [exact He|]. split; [exact Hd|]. split; [|exact K]. destruct (St t Hin) as (N & F' & B). apply bottom_hull; assumption.
Qed.
