(** Spacing keeps blocks and their contents. *)
From Verif Require Import AssignSpec ParaModel SpacingModel TreeModel TreeSpec TreeProof LayoutSpec.
From Verif Require Import LayoutModel WholeModel.
From Coq Require Import Lia Lqa.
Notation length := List.length.
Open Scope nat_scope.

Section LInd.
Variable P : lblock -> Prop.
Hypothesis Pt : forall t, P (LText t).
Hypothesis Pb : forall tb cs, (forall info ss bs b, In (info, ss, bs) cs -> In b bs -> P b) -> P (LTable tb cs).
Fixpoint lblock_ind' (b : lblock) : P b :=
  match b with
  | LText t => Pt t
  | LTable tb cs => Pb tb cs (fun info ss bs b Hc Hb =>
      let fix cells (l : list (option bcell * lshapes * list lblock)) : forall c, In c l -> forall b, In b (snd c) -> P b :=
        match l with
        | [] => fun c H => match H with end
        | c0 :: t => fun c H =>
            match H with
            | or_introl E => fun b0 Hb0 =>
                (fix blocks (m : list lblock) : In b0 m -> P b0 :=
                   match m with
                   | [] => fun F => match F with end
                   | x :: r => fun F => match F with or_introl E2 => eq_ind x P (lblock_ind' x) b0 E2 | or_intror F2 => blocks r F2 end
                   end) (snd c0) (eq_ind_r (fun c' => In b0 (snd c')) Hb0 E)
            | or_intror H2 => cells t c H2
            end
        end in
      cells cs (info, ss, bs) Hc b Hb)
  end.
End LInd.

Lemma all_some_nth {A} (l : list (option A)) out : all_some l = Some out -> length out = length l /\ forall k x, nth_error out k = Some x -> nth_error l k = Some (Some x).
Proof.
  intros E. apply all_some_spec in E. subst l. split; [rewrite map_length; reflexivity|]. intros k x H. rewrite nth_error_map, H. reflexivity.
Qed.
Lemma loop_length h container : forall bs prev ref vs, spacing_loop h container prev ref bs = Some vs -> length vs = (length bs + match prev with None => 0 | Some _ => 1 end).
Proof.
  induction bs as [|b t IH]; intros prev ref vs E; cbn [spacing_loop] in E.
  - injection E as <-. destruct prev as [[p v]|]; reflexivity.
  - destruct (v_border b) as [dw|]; [|discriminate E]. cbv zeta in E.
    assert (A : forall l prev' ref', option_map (app l) (spacing_loop h container prev' ref' t) = Some vs -> length vs = length l + length t + match prev' with None => 0 | Some _ => 1 end).
    { intros l prev' ref' K. destruct (spacing_loop h container prev' ref' t) as [us|] eqn:Eu; [|discriminate K]. injection K as <-. rewrite app_length, (IH _ _ _ Eu). lia. }
    destruct b as [bb ls|bb|bb w hs].
    + destruct (line_spacing _ _ _) as [[bf ln]|]; [|discriminate E]. apply A in E. destruct prev as [[p v]|]; cbn [length] in *; lia.
    + apply A in E. destruct prev as [[p v]|]; cbn [length] in *; lia.
    + destruct prev as [[p v]|].
      * destruct (v_is_text p); apply A in E; cbn [length] in *; lia.
      * apply IH in E. cbn [length]. lia.
Qed.
(** The result of the spacing, block by block. *)
Lemma space_all_nth container vbs fs out : length fs = length vbs -> space_all container vbs fs = Some out ->
  length out = length fs /\ forall k s, nth_error out k = Some s -> exists f v hs, nth_error fs k = Some f /\ nth_error (final_heights vbs) k = Some hs /\ f container v hs = Some s.
Proof.
  intros L E. unfold space_all in E. destruct (parse_spacing container vbs) as [vs|] eqn:Ev; [|discriminate E]. cbn [obind] in E. apply loop_length in Ev. rewrite Nat.add_0_r in Ev.
  apply all_some_nth in E. destruct E as [E1 E2].
  assert (Lh : length (final_heights vbs) = length vbs) by (unfold final_heights; rewrite map_length, combine_length, seq_length; lia).
  split; [rewrite E1, map_length, !combine_length; lia|].
  intros k s Hk. apply E2 in Hk. rewrite nth_error_map in Hk. destruct (nth_error (combine fs (combine vs (final_heights vbs))) k) as [[f [v hs]]|] eqn:Ek; [|discriminate Hk]. cbn [option_map fst snd] in Hk. injection Hk as Hk.
  assert (C : forall {A B} (l : list A) (m : list B) k a b, nth_error (combine l m) k = Some (a, b) -> nth_error l k = Some a /\ nth_error m k = Some b).
  { clear. intros A B. induction l as [|x l IH]; intros [|y m] [|k] a b E; try discriminate E; cbn in E |- *; [injection E as <- <-; auto|apply IH, E]. }
  apply C in Ek. destruct Ek as [Ef Ek]. apply C in Ek. destruct Ek as [_ Eh]. exists f, v, hs. split; [exact Ef|]. split; [exact Eh|exact Hk].
Qed.
Lemma space_nth order pm container bs out : space_layout order pm container bs = Some out ->
  length out = length bs /\ forall k s, nth_error out k = Some s -> exists b v hs, nth_error bs k = Some b /\ nth_error (final_heights (map vblock_of bs)) k = Some hs /\ space_block order pm b container v hs = Some s.
Proof.
  intros E. unfold space_layout in E. apply space_all_nth in E; [|rewrite !map_length; reflexivity]. destruct E as [L E]. split; [rewrite L; apply map_length|].
  intros k s Hk. destruct (E k s Hk) as (f & v & hs & Ef & Eh & K). rewrite nth_error_map in Ef. destruct (nth_error bs k) as [b|]; [|discriminate Ef]. injection Ef as <-. exists b, v, hs. auto.
Qed.
(** The cells of a table as spaced. *)
Definition space_cell (order : list nat -> list nat) (pm : params) (c : lcell) : option scell :=
  match lc_info c with
  | Some i => if rect_bool (bc_bbox i) then option_map (fun bs => (Some i, vertical_text (lc_blocks c), bs)) (space_layout order pm (working_box i) (lc_blocks c)) else Some (None, false, [])
  | None => Some (None, false, [])
  end.
Lemma space_table order pm container v hs tb cs s : space_block order pm (LTable tb cs) container v hs = Some s ->
  exists cells, all_some (map (space_cell order pm) cs) = Some cells /\ s = STable (mkTP (v_before v) (rx0 tb - rx0 container) (tab_lattice tb)) (combine hs (cut (map snd (tab_rows tb)) cells)).
Proof.
  intros E. cbn [space_block] in E. match type of E with option_map _ ?x = _ => destruct x as [cells|] eqn:Ec end; [|discriminate E]. injection E as <-. exists cells. split; [exact Ec|reflexivity].
Qed.
Lemma cut_incl {A} ns : forall (l : list A) r x, In r (cut ns l) -> In x r -> In x l.
Proof.
  induction ns as [|n t IH]; intros l r x H Hx; [destruct H|]. cbn [cut] in H. destruct H as [<-|H].
  - rewrite <- (firstn_skipn n l). apply in_or_app. left. exact Hx.
  - rewrite <- (firstn_skipn n l). apply in_or_app. right. apply (IH _ r x H Hx).
Qed.
Lemma space_incl order pm b : forall container v hs s, space_block order pm b container v hs = Some s -> incl (sblock_text s) (block_text b).
Proof.
  induction b as [t|tb cs IH] using lblock_ind'; intros container v hs s E.
  - cbn [space_block] in E. destruct (parse_horizontal _ _ _ _ _ _) as [p|]; [|discriminate E]. cbn [obind] in E. destruct (line_breaks _ _ _ _ _) as [br|]; [|discriminate E]. injection E as <-. cbn [sblock_text block_text st_lines]. apply incl_refl.
  - apply space_table in E. destruct E as (cells & Ec & ->). intros g Hg. cbn [sblock_text] in Hg. apply in_flat_map in Hg. destruct Hg as ([h row] & Hr & Hg). cbn [snd] in Hg. apply in_flat_map in Hg. destruct Hg as (c' & Hc & Hg).
    apply in_combine_r in Hr. pose proof (cut_incl _ _ _ _ Hr Hc) as Hin. apply In_nth_error in Hin. destruct Hin as (k & Hk). apply all_some_nth in Ec. destruct Ec as [_ Ec]. apply Ec in Hk. rewrite nth_error_map in Hk.
    match type of Hk with option_map _ ?x = _ => destruct x as [c|] eqn:Ek end; [|discriminate Hk]. injection Hk as Hk. apply nth_error_In in Ek. cbn [block_text]. apply in_flat_map. exists c. split; [exact Ek|]. unfold space_cell in Hk. destruct c as [[info ss] bs]. cbn [lc_info lc_blocks fst snd] in *.
    destruct info as [i|]; [|injection Hk as <-; destruct Hg]. destruct (rect_bool (bc_bbox i)); [|injection Hk as <-; destruct Hg].
    destruct (space_layout order pm (working_box i) bs) as [sb|] eqn:Es; [|discriminate Hk]. injection Hk as <-. cbn [snd] in Hg. apply in_flat_map in Hg. destruct Hg as (s & Hs & Hg).
    apply In_nth_error in Hs. destruct Hs as (j & Hj). destruct (proj2 (space_nth _ _ _ _ _ Es) j s Hj) as (b & v' & hs' & Hb & _ & Eb). apply nth_error_In in Hb. apply in_flat_map. exists b. split; [exact Hb|]. apply (IH (Some i) ss bs b Ek Hb _ _ _ _ Eb). exact Hg.
Qed.
Lemma layout_incl order pm container bs out : space_layout order pm container bs = Some out -> incl (flat_map sblock_text out) (text_of bs).
Proof.
  intros E g Hg. apply in_flat_map in Hg. destruct Hg as (s & Hs & Hg). apply In_nth_error in Hs. destruct Hs as (j & Hj). destruct (proj2 (space_nth _ _ _ _ _ E) j s Hj) as (b & v & hs & Hb & _ & Eb). apply nth_error_In in Hb.
  unfold text_of. apply in_flat_map. exists b. split; [exact Hb|]. apply (space_incl _ _ _ _ _ _ _ Eb). exact Hg.
Qed.
