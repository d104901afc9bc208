(** The spacing of blocks of text. *)
From Verif Require Import AssignSpec AssignProof GraphProof TextProof PySort ParaModel SpacingModel TreeModel TreeSpec TreeProof.
From Verif Require Import LayoutModel WholeModel.
From Verif Require Import CleanModel FlowModel .
From Coq Require Import Lia Lqa Permutation.
Notation length := List.length.
Open Scope Q_scope.

Definition text_block_ok (u : tblock) : Prop := proper (b_bbox u) /\ b_lines u <> [].
Lemma text_loop h container us : (forall u, In u us -> text_block_ok u) -> forall prev ref, exists vs,
  spacing_loop h container prev ref (map vblock_of (map LText us)) = Some vs /\ length vs = (length us + match prev with None => 0 | Some _ => 1 end)%nat.
Proof.
  induction us as [|u r IH]; intros H prev ref; cbn [map spacing_loop].
  - destruct prev as [[p v]|]; eexists; split; reflexivity.
  - cbn [vblock_of v_border v_box]. destruct (H u (or_introl eq_refl)) as [_ Ne].
    destruct (line_spacing (b_bbox u) (b_lines u) (lo h (b_bbox u) - 0 - ref)) as [[bf ln]|] eqn:El.
    + destruct (IH (fun x Hx => H x (or_intror Hx)) (Some (VText (b_bbox u) (b_lines u), mkV bf 0 ln)) (hi h (b_bbox u) + 0)) as (vs & E & Lv). rewrite E. cbn [option_map].
      eexists. split; [reflexivity|]. rewrite app_length, Lv. destruct prev as [[p v]|]; cbn [length]; lia.
    + exfalso. unfold line_spacing in El. destruct (b_lines u) as [|l t]; [apply Ne; reflexivity|]. cbv zeta in El. destruct (qlt _ 0) in El; discriminate El.
Qed.
Lemma breaks_total h bb p free ls : proper bb -> exists br, line_breaks h bb p free ls = Some br /\ length br = length ls.
Proof.
  intros (P1 & P2). induction ls as [|l t IH]; [exists []; split; reflexivity|]. destruct t as [|n t]; [exists [false]; split; reflexivity|].
  destruct IH as (br & E & Lb). cbn [line_breaks] in *. rewrite E. clear E.
  assert (Z : qeq (endp h bb - startp h bb) 0 = false) by (destruct (qeq_spec (endp h bb - startp h bb) 0) as [K|K]; [exfalso; destruct h; cbn [endp startp] in K; lra|reflexivity]). rewrite Z.
  destruct (same_row l n); [|destruct (qlt _ _)]; eexists; (split; [reflexivity|]); cbn [length] in *; lia.
Qed.
Definition spaced (u : tblock) (s : sblock) : Prop := exists t, s = ST t /\ st_lines t = b_lines u /\ st_bbox t = b_bbox u /\ length (st_breaks t) = length (b_lines u).
Lemma space_text order pm container v hs u : (forall l, Permutation l (order l)) -> text_block_ok u -> exists s, space_block order pm (LText u) container v hs = Some s /\ spaced u s.
Proof.
  intros Ho [P Ne]. cbn [space_block]. unfold parse_horizontal. destruct (group_perm same_row order Ho (b_lines u)) as (gs & E & _). rewrite E. cbn [obind].
  destruct (breaks_total (is_horizontal (ParaModel.block_dir (b_lines u))) (b_bbox u) (horizontal_spacing (is_horizontal (ParaModel.block_dir (b_lines u))) (b_bbox u) container (text_thresholds pm) (b_lines u) gs fresh_para) (p_line_free pm) (b_lines u) P) as (br & Eb & Lb).
  rewrite Eb. cbn [option_map]. eexists. split; [reflexivity|]. eexists. split; [reflexivity|]. cbn [st_lines st_bbox st_breaks]. auto.
Qed.
Lemma all_some_zip order pm container us : (forall l, Permutation l (order l)) -> (forall u, In u us -> text_block_ok u) -> forall (xs : list (vspace * list Q)), length xs = length us ->
  exists out, all_some (map (fun p : (rect -> vspace -> list Q -> option sblock) * (vspace * list Q) => fst p container (fst (snd p)) (snd (snd p))) (combine (map (space_block order pm) (map LText us)) xs)) = Some out /\ Forall2 spaced us out.
Proof.
  intros Ho. induction us as [|u r IH]; intros H xs Lx; [exists []; split; [reflexivity|constructor]|].
  destruct xs as [|x xs]; [discriminate Lx|]. cbn [map combine all_some fst snd].
  destruct (space_text order pm container (fst x) (snd x) u Ho (H u (or_introl eq_refl))) as (s & Es & Sp). rewrite Es.
  destruct (IH (fun y Hy => H y (or_intror Hy)) xs ltac:(cbn [length] in Lx; lia)) as (out & Eo & F). rewrite Eo. cbn [option_map obind]. exists (s :: out). split; [reflexivity|constructor; assumption].
Qed.
Lemma space_texts order pm container us : (forall l, Permutation l (order l)) -> (forall u, In u us -> text_block_ok u) ->
  exists out, space_layout order pm container (map LText us) = Some out /\ Forall2 spaced us out.
Proof.
  intros Ho H. unfold space_layout, space_all, parse_spacing. destruct (text_loop (orientation (map vblock_of (map LText us))) container us H None (lo (orientation (map vblock_of (map LText us))) container)) as (vs & E & Lv).
  rewrite E. cbn [obind]. apply all_some_zip; [exact Ho|exact H|]. rewrite combine_length, Lv. unfold final_heights. rewrite map_length, combine_length, seq_length, !map_length. lia.
Qed.
