(** Property theorems for colours (C21, C22, C45). *)
From Verif Require Import ColorModel ColorSpec ColorProof.
Open Scope Z_scope.

(** C21: every 24-bit value splits into three bytes that recombine to it. *)
Theorem C21_components_of_value : forall v, 0 <= v < 2 ^ 24 ->
  exists r g b, rgb_component v = Some [r; g; b] /\
    0 <= r < 256 /\ 0 <= g < 256 /\ 0 <= b < 256 /\ r * 65536 + g * 256 + b = v.
Proof. exact rgb_component_spec. Qed.
Print Assumptions C21_components_of_value.
(** C21: bytes r, g, b given as r/255, g/255, b/255 become the value, and come back. *)
Theorem C21_bytes_round_trip : forall r g b, 0 <= r < 256 -> 0 <= g < 256 -> 0 <= b < 256 ->
  rgb_to_value [inject_Z r / 255; inject_Z g / 255; inject_Z b / 255]%Q = r * 65536 + g * 256 + b /\
  rgb_component (rgb_to_value [inject_Z r / 255; inject_Z g / 255; inject_Z b / 255]%Q) = Some [r; g; b].
Proof.
  intros r g b Hr Hg Hb. rewrite rgb_to_value3, !chan_int. split; [reflexivity|].
  destruct (rgb_component_spec (r * 65536 + g * 256 + b)) as (r' & g' & b' & E & R1 & R2 & R3 & R4); [cbn; lia|].
  destruct (channels_unique _ _ _ _ _ _ R2 R3 Hg Hb R4) as (-> & -> & ->). exact E.
Qed.
Print Assumptions C21_bytes_round_trip.
(** C21: for components in [0,1] the value is a 24-bit value whose bytes are the
    components times 255, rounded down. *)
Theorem C21_value_of_components : forall x y z, (0 <= x <= 1)%Q -> (0 <= y <= 1)%Q -> (0 <= z <= 1)%Q ->
  exists r g b, rgb_component (rgb_to_value [x; y; z]) = Some [r; g; b] /\ 0 <= rgb_to_value [x; y; z] < 2 ^ 24 /\
    (inject_Z r <= x * 255 < inject_Z r + 1)%Q /\ (inject_Z g <= y * 255 < inject_Z g + 1)%Q /\ (inject_Z b <= z * 255 < inject_Z b + 1)%Q.
Proof. exact value_roundtrip. Qed.
Print Assumptions C21_value_of_components.
(** C21: larger values give the first six hexadecimal digits, i.e. another
    colour; negative values raise. *)
Theorem C21_out_of_range_high : forall v, 2 ^ 24 <= v -> exists r g b k q, rgb_component v = Some [r; g; b] /\
  1 <= k /\ q = v / 16 ^ k /\ 16 ^ 5 <= q < 16 ^ 6 /\
  0 <= r < 256 /\ 0 <= g < 256 /\ 0 <= b < 256 /\ r * 65536 + g * 256 + b = q.
Proof. exact rgb_component_big. Qed.
Print Assumptions C21_out_of_range_high.
Theorem C21_out_of_range_negative : forall v, v < 0 -> rgb_component v = None.
Proof. exact rgb_component_neg. Qed.
Print Assumptions C21_out_of_range_negative.
Example C21_nonvacuous : 0 <= 16711680 < 2 ^ 24 /\ rgb_component 16711680 = Some [255; 0; 0] /\
  rgb_component 4660 = Some [0; 18; 52] /\ rgb_component (2 ^ 24) = Some [16; 0; 0] /\ rgb_to_value [1; 1 # 2; 0]%Q = 16744192.
Proof. repeat split; try reflexivity; lia. Qed.
(** Finding: a component above 1 carries over into the next channel. *)
Theorem C21_overflow_refuted : exists x, (1 < x)%Q /\ rgb_component (rgb_to_value [0; x; 0]%Q) = Some [1; 1; 0].
Proof. exists (257 # 255)%Q. split; [reflexivity|vm_compute; reflexivity]. Qed.
Print Assumptions C21_overflow_refuted.

(** C22: one component is gray. *)
Theorem C22_gray : forall g, rgb_value [g] = rgb_value [g; g; g].
Proof. reflexivity. Qed.
Print Assumptions C22_gray.
(** C22: CMYK as RGB of the complementary components. *)
Theorem C22_cmyk : forall c m y k,
  rgb_value [c; m; y; k] = rgb_value [(1 - c) * (1 - k); (1 - m) * (1 - k); (1 - y) * (1 - k)]%Q.
Proof. exact cmyk_value. Qed.
Print Assumptions C22_cmyk.
Theorem C22_cmyk_key_is_gray : forall k, rgb_value [0; 0; 0; k]%Q = rgb_value [1 - k]%Q.
Proof. intros k. rewrite cmyk_value. apply rgb_comp; field. Qed.
Print Assumptions C22_cmyk_key_is_gray.
Theorem C22_cmyk_no_key : forall c m y, rgb_value [c; m; y; 0]%Q = rgb_value [1 - c; 1 - m; 1 - y]%Q.
Proof. intros c m y. rewrite cmyk_value. apply rgb_comp; field. Qed.
Print Assumptions C22_cmyk_no_key.
Theorem C22_cmyk_full_key_is_black : forall c m y, rgb_value [c; m; y; 1]%Q = 0.
Proof. intros c m y. rewrite cmyk_value. apply (rgb_comp _ _ _ 0 0 0); field. Qed.
Print Assumptions C22_cmyk_full_key_is_black.
(** C22: all colour models stay in the 24-bit range. *)
Theorem C22_range : forall l, (forall x, In x l -> (0 <= x <= 1)%Q) -> 0 <= rgb_value l < 2 ^ 24.
Proof.
  assert (H3 : forall x y z, (0 <= x <= 1)%Q -> (0 <= y <= 1)%Q -> (0 <= z <= 1)%Q -> 0 <= rgb_to_value [x; y; z] < 2 ^ 24).
  { intros x y z Hx Hy Hz. destruct (value_roundtrip x y z Hx Hy Hz) as (r & g & b & _ & H & _). exact H. }
  assert (P : forall x y, (0 <= x <= 1 -> 0 <= y <= 1 -> 0 <= (1 - x / 1) * (1 - y / 1) <= 1)%Q).
  { intros x y Hx Hy. setoid_replace (x / 1)%Q with x by field. setoid_replace (y / 1)%Q with y by field. split; nra. }
  intros l H. unfold rgb_value. destruct l as [|a [|b [|c [|d [|e t]]]]].
  - cbn; lia.
  - apply H3; apply H; left; reflexivity.
  - cbn; lia.
  - apply H3; apply H; cbn; auto.
  - unfold cmyk_to_rgb. apply H3; apply P; apply H; cbn; auto.
  - cbn; lia.
Qed.
Print Assumptions C22_range.
Theorem C22_other_lengths_are_black : forall l, (length l = 0 \/ length l = 2 \/ 4 < length l)%nat -> rgb_value l = 0.
Proof. intros l H. destruct l as [|a [|b [|c [|d [|e t]]]]]; cbn in H; try reflexivity; lia. Qed.
Print Assumptions C22_other_lengths_are_black.
Example C22_nonvacuous : rgb_value [1; 0; 0]%Q = 16711680 /\ rgb_value [0; 1; 1; 0]%Q = 16711680 /\ rgb_value [1 # 2]%Q = 8355711.
Proof. repeat split; reflexivity. Qed.

(** C45: the colour text written into the docx (cell shading, underline, text
    shading) is a legal six-digit Word colour denoting the value, for every
    24-bit value; text shading uses the named highlight exactly for the six
    saturated colours. *)
Theorem C45_color_attribute : forall v, 0 <= v < 2 ^ 24 -> exists ds, color_attribute v = Some ds /\ word_color ds v.
Proof.
  intros v [H0 H1]. destruct (hex6_spec v H0) as (ds & E & D1 & D2 & D3 & _). exists ds. split; [exact E|].
  split; [apply D3; exact H1|]. split; assumption.
Qed.
Print Assumptions C45_color_attribute.
Theorem C45_highlight : forall v h, set_char_shading v = Highlight h <->
  (v, h) = (255 * 65536, RED) \/ (v, h) = (255 * 256, BRIGHT_GREEN) \/ (v, h) = (255, BLUE) \/
  (v, h) = (255 * 65536 + 255 * 256, YELLOW) \/ (v, h) = (255 * 65536 + 255, PINK) \/ (v, h) = (255 * 256 + 255, TURQUOISE).
Proof.
  intros v h. unfold set_char_shading.
  change color_map with [(255 * 65536, RED); (255 * 256, BRIGHT_GREEN); (255, BLUE);
     (255 * 65536 + 255 * 256, YELLOW); (255 * 65536 + 255, PINK); (255 * 256 + 255, TURQUOISE)].
  cbn [lookup]. repeat match goal with |- context [Z.eqb ?a ?b] => destruct (Z.eqb_spec a b) end;
    (split; [intros E; try discriminate E; injection E as <-; subst; auto 8|
             intros H; repeat (destruct H as [H|H]); injection H as Ev Eh; subst h; try reflexivity; try congruence; exfalso; lia]).
Qed.
Print Assumptions C45_highlight.
Theorem C45_shading : forall v, 0 <= v < 2 ^ 24 ->
  (exists h, set_char_shading v = Highlight h) \/ (exists ds, set_char_shading v = Fill (Some ds) /\ word_color ds v).
Proof.
  intros v H. unfold set_char_shading. destruct (lookup v color_map) as [h|]; [left; eauto|right].
  destruct (C45_color_attribute v H) as (ds & E & W). exists ds. unfold color_attribute in E. rewrite E. auto.
Qed.
Print Assumptions C45_shading.
(** Values beyond 24 bits give an illegal (longer) colour text. *)
Theorem C45_too_large : forall v ds, 2 ^ 24 <= v -> color_attribute v = Some ds -> (6 < length ds)%nat.
Proof.
  intros v ds H E. destruct (hex6_spec v) as (ds' & E' & _ & _ & _ & D); [lia|]. unfold color_attribute in E.
  assert (ds' = ds) by congruence. subst. apply D. exact H.
Qed.
Print Assumptions C45_too_large.
Example C45_nonvacuous : color_attribute 255 = Some [0; 0; 0; 0; 15; 15] /\ set_char_shading 255 = Highlight BLUE /\
  set_char_shading 1 = Fill (Some [0; 0; 0; 0; 0; 1]).
Proof. repeat split; reflexivity. Qed.
