(** C87: pictures are recovered with their colours, and visible where their mask says. *)
From Verif Require Import PixSpec.
From Coq Require Import Lia.
Open Scope Z_scope.

Lemma in_rgb_facts rgb p : p_w (in_rgb rgb p) = p_w p /\ p_h (in_rgb rgb p) = p_h p /\ writable_space (in_rgb rgb p) /\ (p_cs (in_rgb rgb p) = None <-> p_cs p = None) /\
  p_alpha (in_rgb rgb p) = p_alpha p /\ p_colors (in_rgb rgb p) = map (shown_colour rgb (p_cs p)) (p_colors p).
Proof.
  unfold in_rgb, writable_space, shown_colour. destruct (p_cs p) as [[| |n]|] eqn:E; cbn [p_w p_h p_cs p_alpha p_colors];
    (split; [reflexivity|]; split; [reflexivity|]; split; [rewrite ?E; auto|]; split; [rewrite ?E; split; intros X; (discriminate X || reflexivity)|]; split; [reflexivity|]);
    rewrite ?map_id; reflexivity.
Qed.
Lemma mask_samples m : is_mask m -> List.length (samples m) = (p_w m * p_h m)%nat /\ forall i, nth_error (samples m) i = value m i.
Proof.
  intros ((L & _) & A & C). unfold samples, value. rewrite A. rewrite <- L. revert C. generalize (p_colors m) as l. clear.
  induction l as [|c l IH]; intros C; [split; [reflexivity|intros [|i]; reflexivity]|]. destruct (C c (or_introl eq_refl)) as (v & -> & _).
  destruct IH as (I1 & I2); [intros c Hc; apply C; right; exact Hc|]. cbn [concat app List.length]. split; [rewrite I1; reflexivity|]. intros [|i]; [reflexivity|]. cbn [nth_error]. apply I2.
Qed.
Lemma combine_nth_ {A B} (l : list A) : forall (l' : list B) i a b, nth_error l i = Some a -> nth_error l' i = Some b -> nth_error (combine l l') i = Some (a, b).
Proof. induction l as [|x l IH]; intros l' i a b H1 H2; destruct i, l'; cbn [nth_error combine] in *; try discriminate; [injection H1 as <-; injection H2 as <-; reflexivity|apply IH; assumption]. Qed.
Lemma nth_firstn_ {A} (l : list A) : forall n i, (i < n)%nat -> nth_error (firstn n l) i = nth_error l i.
Proof. induction l as [|x l IH]; intros [|n] [|i] H; try lia; try reflexivity. cbn [firstn nth_error]. apply IH. lia. Qed.

(** For every picture and every mask of its size: recovered is a picture of the same size, in gray or RGB; a pixel is
    invisible where the mask is 0, and opaque and of its colour everywhere else. *)
Theorem C87_masked doc faded rgb x s : (forall c, faded 255 c = c) -> (0 < s)%nat -> sized (doc x) -> is_mask (doc s) -> p_w (doc s) = p_w (doc x) -> p_h (doc s) = p_h (doc x) ->
  exists r, recover doc faded rgb x s = Some r /\ same_picture (doc x) r /\
    forall i v c, value (doc s) i = Some v -> nth_error (p_colors (doc x)) i = Some c ->
      (v = 0 -> alpha r i = Some 0) /\ (0 < v -> alpha r i = Some 255 /\ nth_error (p_colors r) i = Some (shown_colour rgb (p_cs (doc x)) c)).
Proof.
  intros Hf Hs (Lx & _) M Ew Eh. destruct (mask_samples _ M) as (Ls & Ns). unfold recover. replace (0 <? s)%nat with true by (symmetry; apply Nat.ltb_lt; exact Hs).
  unfold set_alpha. cbn [add_alpha p_w p_h p_cs p_colors p_alpha]. set (n := (p_w (doc x) * p_h (doc x))%nat) in *. assert (Lb : List.length (binary (samples (doc s))) = n) by (unfold binary; rewrite map_length, Ls, Ew, Eh; reflexivity).
  rewrite Lb, Nat.ltb_irrefl. rewrite firstn_all2 by lia. set (ba := binary (samples (doc s))) in *. cbn [option_map].
  match goal with |- exists r, Some (in_rgb rgb ?q) = Some r /\ _ => set (p1 := q); destruct (in_rgb_facts rgb p1) as (F1 & F2 & F3 & F4 & F5 & F6) end.
  exists (in_rgb rgb p1). split; [reflexivity|]. split.
  - split; [exact F1|]. split; [exact F2|]. split; [exact F3|]. split; [exact F4|]. unfold sized. rewrite F1, F2, F5, F6. unfold p1. cbn [p_w p_h p_alpha p_colors]. rewrite !map_length, combine_length, Lb, Lx. fold n. split; [apply Nat.min_id|reflexivity].
  - intros i v c Hv Hc. unfold alpha. rewrite F5, F6. unfold p1. cbn [p_alpha p_colors p_cs]. assert (Hi : (i < n)%nat) by (rewrite <- Lx; apply nth_error_Some; congruence).
    assert (Hb : nth_error ba i = Some (if 0 <? v then 255 else v)) by (unfold ba, binary; rewrite nth_error_map, Ns, Hv; reflexivity).
    rewrite !nth_error_map, (combine_nth_ _ _ _ _ _ Hc Hb). cbn [option_map fst snd]. rewrite Hb. split; intros H.
    + subst v. reflexivity.
    + replace (0 <? v) with true by (symmetry; apply Z.ltb_lt; exact H). rewrite Hf. split; reflexivity.
Qed.
Print Assumptions C87_masked.
(** Without a mask: every pixel as it was. *)
Theorem C87_unmasked doc faded rgb x : sized (doc x) ->
  exists r, recover doc faded rgb x 0 = Some r /\ same_picture (doc x) r /\ (forall i, alpha r i = alpha (doc x) i) /\
    forall i, nth_error (p_colors r) i = option_map (shown_colour rgb (p_cs (doc x))) (nth_error (p_colors (doc x)) i).
Proof.
  intros (L1 & L2). destruct (in_rgb_facts rgb (doc x)) as (F1 & F2 & F3 & F4 & F5 & F6). exists (in_rgb rgb (doc x)). split; [reflexivity|]. split; [|split].
  - split; [exact F1|]. split; [exact F2|]. split; [exact F3|]. split; [exact F4|]. unfold sized. rewrite F1, F2, F5, F6, map_length. split; assumption.
  - intros i. unfold alpha. rewrite F1, F2, F5. reflexivity.
  - intros i. rewrite F6. apply nth_error_map.
Qed.
Print Assumptions C87_unmasked.
(** For every document, recovering an image raises exactly if it has a mask of fewer bytes than the image has pixels; what is recovered has
    no colours, is gray or RGB. *)
Theorem C87_raises doc faded rgb x s :
  (recover doc faded rgb x s = None <-> (0 < s)%nat /\ (List.length (samples (doc s)) < p_w (doc x) * p_h (doc x))%nat) /\
  forall r, recover doc faded rgb x s = Some r -> writable_space r /\ p_w r = p_w (doc x) /\ p_h r = p_h (doc x) /\ (p_cs r = None <-> p_cs (doc x) = None).
Proof.
  unfold recover. destruct (Nat.ltb_spec 0 s) as [Hs|Hs]; cbn [option_map].
  - unfold set_alpha. cbn [add_alpha p_w p_h p_cs p_colors p_alpha]. assert (Lb : List.length (binary (samples (doc s))) = List.length (samples (doc s))) by (unfold binary; apply map_length). rewrite !Lb. destruct (Nat.ltb_spec (List.length (samples (doc s))) (p_w (doc x) * p_h (doc x))) as [Hl|Hl]; cbn [option_map].
    + split; [split; [intros _; split; assumption|reflexivity]|intros r E; discriminate E].
    + split; [split; [intros E; discriminate E|intros (_ & H); lia]|]. intros r E. injection E as <-. match goal with |- writable_space (in_rgb rgb ?q) /\ _ => destruct (in_rgb_facts rgb q) as (F1 & F2 & F3 & F4 & _) end.
      split; [exact F3|]. split; [exact F1|]. split; [exact F2|exact F4].
  - split; [split; [intros E; discriminate E|intros (H & _); lia]|]. intros r E. injection E as <-. destruct (in_rgb_facts rgb (doc x)) as (F1 & F2 & F3 & F4 & _).
    split; [exact F3|]. split; [exact F1|]. split; [exact F2|exact F4].
Qed.
Print Assumptions C87_raises.

(** A CMYK picture of 2 x 1 pixels with a mask that shows its second pixel; premultiplied. *)
Definition px_faded (a : Z) (c : list Z) : list Z := map (fun v => v * a / 255) c.
Definition px_rgb (_ : nat) (c : list Z) : list Z := match c with [c0; m; y; k] => [255 - c0; 255 - m; 255 - y] | _ => c end.
Definition px_mask (l : list Z) (w h : nat) : pix := mkPix (Some Gray) w h (map (fun v => [v]) l) None.
Definition px_doc (mask : pix) (x : nat) : pix := match x with 1%nat => mkPix (Some (OtherCs 0)) 2 1 [[255; 0; 0; 0]; [0; 255; 0; 0]] None | _ => mask end.
Example C87_masked_nonvacuous : let m := px_mask [0; 255] 2 1 in
  (forall c, px_faded 255 c = c) /\ sized (px_doc m 1) /\ is_mask (px_doc m 2) /\
  recover (px_doc m) px_faded px_rgb 1 2 = Some (mkPix (Some Rgb) 2 1 [[255; 255; 255]; [255; 0; 255]] (Some [0; 255])).
Proof.
  cbv zeta. split; [intros c; unfold px_faded; induction c as [|v c IH]; [reflexivity|]; cbn [map]; rewrite IH; rewrite Z.div_mul by discriminate; reflexivity|].
  split; [split; reflexivity|]. split; [|reflexivity]. split; [split; reflexivity|]. split; [reflexivity|]. intros c [<-|[<-|[]]]; eexists; split; try reflexivity; lia.
Qed.
(** Finding: soft masks are made hard. A pixel the mask lets shine through half way (128) is opaque in the document, one that is hardly visible (1) as well. *)
Theorem C87_soft_refuted : let m := px_mask [128; 1] 2 1 in exists r, recover (px_doc m) px_faded px_rgb 1 2 = Some r /\ is_mask (px_doc m 2) /\ alpha r 0 = Some 255 /\ alpha r 1 = Some 255.
Proof. cbv zeta. eexists. split; [reflexivity|]. split; [|split; reflexivity]. split; [split; reflexivity|]. split; [reflexivity|]. intros c [<-|[<-|[]]]; eexists; split; try reflexivity; lia. Qed.
(** Finding: a mask may be of another size than its picture (it is stretched over it). Recovering a picture with a smaller mask raises, and the whole page is
    not converted; here the mask is 1 x 1 and shows all of the picture. *)
Theorem C87_small_mask_refuted : let m := px_mask [255] 1 1 in is_mask (px_doc m 2) /\ sized (px_doc m 1) /\ recover (px_doc m) px_faded px_rgb 1 2 = None.
Proof. cbv zeta. split; [|split; [split; reflexivity|reflexivity]]. split; [split; reflexivity|]. split; [reflexivity|]. intros c [<-|[]]. eexists; split; try reflexivity; lia. Qed.
(** Finding: with a larger mask the wrong pixels are hidden: its first bytes are used, whatever the length of its rows. The mask of 4 x 1 pixels hides nothing of the left half of
    the picture of 2 x 1 pixels and all of its right half; in the document both are visible. *)
Theorem C87_large_mask_refuted : let m := px_mask [255; 255; 0; 0] 4 1 in is_mask (px_doc m 2) /\
  exists r, recover (px_doc m) px_faded px_rgb 1 2 = Some r /\ value (px_doc m 2) 2 = Some 0 /\ value (px_doc m 2) 3 = Some 0 /\ alpha r 1 = Some 255.
Proof. cbv zeta. split; [|eexists; split; [reflexivity|]; split; [reflexivity|]; split; reflexivity]. split; [split; reflexivity|]. split; [reflexivity|]. intros c H. cbn in H. repeat (destruct H as [<-|H]; [eexists; split; [reflexivity|lia]|]). destruct H. Qed.
Print Assumptions C87_soft_refuted.
Print Assumptions C87_small_mask_refuted.
Print Assumptions C87_large_mask_refuted.
