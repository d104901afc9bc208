(** Areas left out of the search for vector graphics (C67). *)
From Verif Require Import MaskSpec.
From Coq Require Import Lia ZArith List.
Open Scope Z_scope.

Lemma on_slice_length {A} (f : A -> A) n a b l : forall k, List.length (on_slice f n a b k l) = List.length l.
Proof. induction l as [|x l IH]; intros k; cbn [on_slice List.length]; [reflexivity|]. rewrite IH. reflexivity. Qed.
Lemma on_slice_nth {A} (f : A -> A) n a b d l : forall k i, (i < List.length l)%nat ->
  nth i (on_slice f n a b k l) d = if in_slice n a b (k + Z.of_nat i) then f (nth i l d) else nth i l d.
Proof.
  induction l as [|x l IH]; intros k i Hi; cbn [List.length] in Hi; [lia|]. destruct i as [|i]; cbn [on_slice nth].
  - rewrite Z.add_0_r. reflexivity.
  - rewrite IH by lia. replace (k + 1 + Z.of_nat i) with (k + Z.of_nat (S i)) by lia. reflexivity.
Qed.
Lemma on_slice_in {A} (f : A -> A) n a b l : forall k x, In x (on_slice f n a b k l) -> exists y, In y l /\ (x = y \/ x = f y).
Proof.
  induction l as [|y l IH]; intros k x Hx; [destruct Hx|]. cbn [on_slice] in Hx. destruct Hx as [<-|Hx].
  - exists y. split; [left; reflexivity|]. destruct (in_slice n a b k); auto.
  - destruct (IH _ _ Hx) as (z & Hz & E). exists z. split; [right; exact Hz|exact E].
Qed.
Lemma blank_sized w h g r : sized w h g -> sized w h (blank g r).
Proof.
  intros [Hh Hw]. split; [unfold blank; rewrite on_slice_length; exact Hh|]. intros row Hr. unfold blank in Hr.
  apply on_slice_in in Hr. destruct Hr as (y & Hy & [->| ->]); [|rewrite on_slice_length]; apply Hw; exact Hy.
Qed.
Lemma mask_sized w h l : forall g, sized w h g -> sized w h (mask l g).
Proof. induction l as [|r l IH]; intros g S; [exact S|]. apply (IH (blank g r)). apply blank_sized. exact S. Qed.
Lemma blank_pixel w h g r i j : sized w h g -> 0 <= i < h -> 0 <= j < w ->
  pixel (blank g r) i j = if in_slice h (int_of (ry0 r) - 2) (int_of (ry1 r) + 2) i && in_slice w (int_of (rx0 r) - 2) (int_of (rx1 r) + 2) j then 255 else pixel g i j.
Proof.
  intros [Hh Hw] Hi Hj. unfold pixel, blank, len. rewrite on_slice_nth by lia. rewrite Z.add_0_l, Z2Nat.id by lia. rewrite Hh.
  destruct (in_slice h _ _ i); cbn [andb]; [|reflexivity].
  assert (R : Z.of_nat (List.length (nth (Z.to_nat i) g [])) = w) by (apply Hw; apply nth_In; lia).
  rewrite on_slice_nth by lia. rewrite Z.add_0_l, Z2Nat.id by lia. rewrite R. reflexivity.
Qed.
Lemma slice_near n a b k : 0 <= a -> 0 <= b -> 0 <= k < n -> (in_slice n a b k = true <-> a <= k < b).
Proof.
  intros Ha Hb Hk. unfold in_slice, bound. rewrite (proj2 (Z.ltb_ge a 0)), (proj2 (Z.ltb_ge b 0)) by lia.
  rewrite andb_true_iff, Z.leb_le, Z.ltb_lt. lia.
Qed.
Lemma mask_pixel w h l : forall g i j, sized w h g -> 0 <= i < h -> 0 <= j < w ->
  pixel (mask l g) i j = if existsb (fun r => in_slice h (int_of (ry0 r) - 2) (int_of (ry1 r) + 2) i && in_slice w (int_of (rx0 r) - 2) (int_of (rx1 r) + 2) j) l then 255 else pixel g i j.
Proof.
  induction l as [|r l IH]; intros g i j S Hi Hj; [reflexivity|]. cbn [existsb].
  change (mask (r :: l) g) with (mask l (blank g r)). rewrite IH by (try apply blank_sized; assumption). rewrite (blank_pixel w h) by assumption.
  destruct (in_slice h (int_of (ry0 r) - 2) (int_of (ry1 r) + 2) i && in_slice w (int_of (rx0 r) - 2) (int_of (rx1 r) + 2) j); cbn [orb]; [|reflexivity].
  destruct (existsb _ l); reflexivity.
Qed.

(** C67: every pixel of a path area or of a picture that keeps away from the left and the upper edge is blank. *)
Theorem C67_blank : forall iso bs g w h r i j, sized w h g -> 0 <= i < h -> 0 <= j < w ->
  In r iso \/ (exists b, In b bs /\ rb_type b = 1 /\ rb_box b = r) -> clear_of_edge r -> near r i j -> pixel (searched iso bs g) i j = 255.
Proof.
  intros iso bs g w h r i j S Hi Hj Hr (C1 & C2 & C3 & C4) [N1 N2]. unfold searched. rewrite (mask_pixel w h) by assumption.
  assert (E : existsb (fun r => in_slice h (int_of (ry0 r) - 2) (int_of (ry1 r) + 2) i && in_slice w (int_of (rx0 r) - 2) (int_of (rx1 r) + 2) j) (excluded iso bs) = true); [|rewrite E; reflexivity].
  apply existsb_exists. exists r. split.
  - unfold excluded. apply in_or_app. destruct Hr as [Hr|(b & Hb & Ht & <-)]; [left; exact Hr|right]. apply in_map. apply filter_In. split; [exact Hb|]. unfold is_image. rewrite Ht. reflexivity.
  - apply andb_true_iff. split; apply slice_near; lia.
Qed.
Print Assumptions C67_blank.

(** C67: if all of them keep away from these edges, nothing else is blanked: all other pixels, also
    those under deleted pictures and text, are searched as they are. *)
Theorem C67_rest : forall iso bs g w h i j, sized w h g -> 0 <= i < h -> 0 <= j < w ->
  (forall r, In r iso \/ (exists b, In b bs /\ rb_type b = 1 /\ rb_box b = r) -> clear_of_edge r /\ ~ near r i j) -> pixel (searched iso bs g) i j = pixel g i j.
Proof.
  intros iso bs g w h i j S Hi Hj Hr. unfold searched. rewrite (mask_pixel w h) by assumption.
  destruct (existsb _ (excluded iso bs)) eqn:E; [|reflexivity]. exfalso. apply existsb_exists in E. destruct E as (r & H1 & H2).
  destruct (Hr r) as [(C1 & C2 & C3 & C4) N].
  - unfold excluded in H1. apply in_app_or in H1. destruct H1 as [H1|H1]; [left; exact H1|right]. apply in_map_iff in H1. destruct H1 as (b & <- & Hb).
    apply filter_In in Hb. destruct Hb as [Hb Ht]. exists b. split; [exact Hb|]. split; [|reflexivity]. unfold is_image in Ht. apply Z.eqb_eq in Ht. exact Ht.
  - apply N. apply andb_true_iff in H2. destruct H2 as [H2 H3]. apply slice_near in H2; [|lia|lia|lia]. apply slice_near in H3; [|lia|lia|lia]. split; assumption.
Qed.
Print Assumptions C67_rest.

(** C67: the size of the image is kept. *)
Theorem C67_size : forall iso bs g w h, sized w h g -> sized w h (searched iso bs g).
Proof. intros iso bs g w h S. apply mask_sized. exact S. Qed.
Print Assumptions C67_size.

(** C67 finding: an area that reaches the upper edge of the page or beyond (and leaves enough rows below) is
    not left out at all: [-2] counts from the end of the page.  The picture is taken for graphics, too. *)
Theorem C67_upper_edge_refuted : forall r g w h, sized w h g -> int_of (ry0 r) < 2 -> 0 <= int_of (ry1 r) -> int_of (ry1 r) + 2 <= h + (int_of (ry0 r) - 2) ->
  forall i j, 0 <= i < h -> 0 <= j < w -> pixel (searched [r] [] g) i j = pixel g i j.
Proof.
  intros r g w h S H1 H2 H3 i j Hi Hj. unfold searched. rewrite (mask_pixel w h) by assumption.
  destruct (existsb _ _) eqn:E; [|reflexivity]. exfalso. cbn [excluded filter map app existsb] in E. rewrite orb_false_r in E.
  apply andb_true_iff in E. destruct E as [E _]. unfold in_slice in E. apply andb_true_iff in E. rewrite Z.leb_le, Z.ltb_lt in E. unfold bound in E.
  rewrite (proj2 (Z.ltb_lt (int_of (ry0 r) - 2) 0)), (proj2 (Z.ltb_ge (int_of (ry1 r) + 2) 0)) in E by lia. lia.
Qed.
Print Assumptions C67_upper_edge_refuted.
(** The same at the left edge. *)
Theorem C67_left_edge_refuted : forall r g w h, sized w h g -> int_of (rx0 r) < 2 -> 0 <= int_of (rx1 r) -> int_of (rx1 r) + 2 <= w + (int_of (rx0 r) - 2) ->
  forall i j, 0 <= i < h -> 0 <= j < w -> pixel (searched [r] [] g) i j = pixel g i j.
Proof.
  intros r g w h S H1 H2 H3 i j Hi Hj. unfold searched. rewrite (mask_pixel w h) by assumption.
  destruct (existsb _ _) eqn:E; [|reflexivity]. exfalso. cbn [excluded filter map app existsb] in E. rewrite orb_false_r in E.
  apply andb_true_iff in E. destruct E as [_ E]. unfold in_slice in E. apply andb_true_iff in E. rewrite Z.leb_le, Z.ltb_lt in E. unfold bound in E.
  rewrite (proj2 (Z.ltb_lt (int_of (rx0 r) - 2) 0)), (proj2 (Z.ltb_ge (int_of (rx1 r) + 2) 0)) in E by lia. lia.
Qed.
Print Assumptions C67_left_edge_refuted.
(** Of a picture that fills the page only the last two rows and columns are left out. *)
Theorem C67_full_page_refuted : forall g w h, sized w h g -> 4 <= w -> 4 <= h ->
  forall i j, 0 <= i < h -> 0 <= j < w -> i < h - 2 \/ j < w - 2 ->
  pixel (searched [] [mkRB 1 (mkRect 0 0 (inject_Z w) (inject_Z h)) "picture" ""] g) i j = pixel g i j.
Proof.
  intros g w h S Hw Hh i j Hi Hj N. unfold searched. rewrite (mask_pixel w h) by assumption.
  destruct (existsb _ _) eqn:E; [|reflexivity]. exfalso.
  assert (I0 : int_of 0 = 0) by reflexivity.
  assert (IZ : forall z, 0 <= z -> int_of (inject_Z z) = z).
  { intros z Hz. unfold int_of. assert (Q0 : qle 0 (inject_Z z) = true) by (apply qle_iff; change 0%Q with (inject_Z 0); rewrite <- Zle_Qle; exact Hz). rewrite Q0. apply Qfloor_Z. }
  unfold excluded in E. cbn [is_image rb_type filter map app existsb rb_box Z.eqb Pos.eqb] in E. rewrite orb_false_r in E.
  cbn [rx0 ry0 rx1 ry1] in E. rewrite I0, !IZ in E by lia.
  apply andb_true_iff in E. destruct E as [E1 E2]. unfold in_slice in *. apply andb_true_iff in E1. apply andb_true_iff in E2. rewrite Z.leb_le, Z.ltb_lt in *.
  unfold bound in *. change (0 - 2 <? 0) with true in *. cbv iota in *. lia.
Qed.
Print Assumptions C67_full_page_refuted.
(** A page of 8 by 8 grey pixels with a path area of about 3 by 2 points. *)
Definition ex_grey : grey := repeat (repeat 7 8) 8.
Example C67_ex_inside : sized 8 8 ex_grey /\ clear_of_edge (mkRect (25 # 10) 3 (49 # 10) 4) /\ near (mkRect (25 # 10) 3 (49 # 10) 4) 1 5 /\
  ~ near (mkRect (25 # 10) 3 (49 # 10) 4) 6 5 /\
  map (fun row => List.length (filter (Z.eqb 255) row)) (searched [mkRect (25 # 10) 3 (49 # 10) 4] [] ex_grey) = [0; 6; 6; 6; 6; 6; 0; 0]%nat.
Proof.
  split; [split; [reflexivity|intros row Hr; apply repeat_spec in Hr; subst row; reflexivity]|].
  split; [vm_compute; intuition discriminate|]. split; [vm_compute; intuition discriminate|]. split; [|vm_compute; reflexivity].
  intros [N _]. vm_compute in N. destruct N as [_ N]. discriminate.
Qed.
Example C67_ex_edge : searched [mkRect 0 0 3 3] [] ex_grey = ex_grey.
Proof. vm_compute. reflexivity. Qed.
