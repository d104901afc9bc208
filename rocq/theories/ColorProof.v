(** Lemmas about the colour functions. *)
From Verif Require Import ColorModel ColorSpec.
Open Scope Z_scope.

Lemma denotes_from m : forall a, fold_left (fun a d => 16 * a + d) m a = a * 16 ^ Z.of_nat (length m) + denotes m.
Proof.
  unfold denotes. induction m as [|d m IH]; intros a; cbn [fold_left length]; [cbn; lia|].
  rewrite IH, (IH (16 * 0 + d)). rewrite Nat2Z.inj_succ, Z.pow_succ_r by lia. ring.
Qed.
Lemma denotes_app l m : denotes (l ++ m) = denotes l * 16 ^ Z.of_nat (length m) + denotes m.
Proof. unfold denotes at 1 2. rewrite fold_left_app. apply denotes_from. Qed.
Lemma denotes_zeros n : denotes (repeat 0 n) = 0.
Proof. induction n as [|n IH]; [reflexivity|]. cbn [repeat]. change (0 :: repeat 0 n) with ([0] ++ repeat 0 n). rewrite denotes_app, IH. reflexivity. Qed.
Lemma denotes_bound l : is_hex l -> 0 <= denotes l < 16 ^ Z.of_nat (length l).
Proof.
  induction l as [|d l IH] using rev_ind; intros H; [cbn; lia|].
  rewrite denotes_app, app_length. assert (H1 : is_hex l) by (intros x Hx; apply H; apply in_or_app; auto).
  assert (Hd : 0 <= d < 16) by (apply H; apply in_or_app; right; left; reflexivity).
  specialize (IH H1). rewrite Nat2Z.inj_add, Z.pow_add_r by lia. change (denotes [d]) with d. change (16 ^ Z.of_nat (length [d])) with 16. lia.
Qed.

Lemma hex_loop_spec fuel : forall v acc, 0 <= v -> v < 16 ^ Z.of_nat (S fuel) ->
  exists ds, hex_loop (S fuel) v acc = ds ++ acc /\ is_hex ds /\ denotes ds = v /\ ds <> [] /\
             (v <> 0 -> 16 ^ (Z.of_nat (length ds) - 1) <= v).
Proof.
  induction fuel as [|f IH]; intros v acc H0 H1; cbn [hex_loop]; destruct (Z.ltb_spec v 16) as [L|L].
  - exists [v]. split; [reflexivity|]. split; [intros d [<-|[]]; lia|]. split; [reflexivity|]. split; [discriminate|]. cbn; lia.
  - cbn in H1. lia.
  - exists [v]. split; [reflexivity|]. split; [intros d [<-|[]]; lia|]. split; [reflexivity|]. split; [discriminate|]. cbn; lia.
  - assert (Hq : 0 <= v / 16) by (apply Z.div_pos; lia).
    assert (Hq1 : v / 16 < 16 ^ Z.of_nat (S f)).
    { apply Z.div_lt_upper_bound; [lia|]. rewrite (Nat2Z.inj_succ (S f)), Z.pow_succ_r in H1 by lia. lia. }
    pose proof (Z.mod_pos_bound v 16 ltac:(lia)) as Hm. pose proof (Z.div_mod v 16 ltac:(lia)) as Hd.
    destruct (IH (v / 16) (v mod 16 :: acc) Hq Hq1) as (ds & E & D1 & D2 & D3 & D4).
    change (hex_loop (S f) (v / 16) (v mod 16 :: acc)) with (hex_loop (S f) (v / 16) (v mod 16 :: acc)) in E.
    exists (ds ++ [v mod 16]). split; [rewrite <- app_assoc; exact E|].
    split; [intros d Hin; apply in_app_or in Hin; destruct Hin as [Hin|[<-|[]]]; [apply D1; exact Hin|lia]|].
    split; [rewrite denotes_app, D2; change (denotes [v mod 16]) with (v mod 16); change (16 ^ Z.of_nat (length [v mod 16])) with 16; lia|].
    split; [intros E'; apply app_eq_nil in E'; destruct E'; discriminate|].
    intros _. assert (v / 16 <> 0) by (assert (1 <= v / 16) by (apply Z.div_le_lower_bound; lia); lia).
    specialize (D4 H). rewrite app_length. cbn [length].
    replace (Z.of_nat (length ds + 1) - 1) with (Z.succ (Z.of_nat (length ds) - 1)) by lia.
    rewrite Z.pow_succ_r; [lia|]. destruct ds; [contradiction|]. cbn [length]. lia.
Qed.
Lemma hex_digits_spec v : 0 <= v ->
  is_hex (hex_digits v) /\ denotes (hex_digits v) = v /\ hex_digits v <> [] /\
  (v <> 0 -> 16 ^ (Z.of_nat (length (hex_digits v)) - 1) <= v).
Proof.
  intros H. unfold hex_digits. destruct (hex_loop_spec (Z.to_nat (Z.log2 v)) v [] H) as (ds & E & D).
  - rewrite Nat2Z.inj_succ, Z2Nat.id by apply Z.log2_nonneg.
    destruct (Z.eq_dec v 0) as [->|N]; [cbn; lia|].
    pose proof (Z.log2_spec v ltac:(lia)) as [_ L].
    eapply Z.lt_le_trans; [exact L|]. apply Z.pow_le_mono_l. lia.
  - rewrite E, app_nil_r. exact D.
Qed.
Lemma hex6_spec v : 0 <= v -> exists ds, hex6 v = Some ds /\ is_hex ds /\ denotes ds = v /\
  (v < 16 ^ 6 -> length ds = 6%nat) /\ (16 ^ 6 <= v -> (6 < length ds)%nat /\ 16 ^ (Z.of_nat (length ds) - 1) <= v).
Proof.
  intros H. unfold hex6. destruct (Z.ltb_spec v 0) as [L|L]; [lia|].
  destruct (hex_digits_spec v H) as (D1 & D2 & D3 & D4).
  exists (zfill 6 (hex_digits v)). split; [reflexivity|]. unfold zfill.
  split; [intros d Hd; apply in_app_or in Hd; destruct Hd as [Hd|Hd]; [apply repeat_spec in Hd; lia|apply D1; exact Hd]|].
  split; [rewrite denotes_app, denotes_zeros, D2; lia|].
  set (n := length (hex_digits v)) in *.
  assert (Hlen : length (repeat 0 (6 - n) ++ hex_digits v) = (6 - n + n)%nat) by (rewrite app_length, repeat_length; reflexivity).
  assert (Hb : v < 16 ^ Z.of_nat n) by (pose proof (denotes_bound _ D1); fold n in H0; lia).
  split; intros Hv.
  - rewrite Hlen. destruct (Nat.le_gt_cases n 6) as [?|G]; [lia|].
    exfalso. destruct (Z.eq_dec v 0) as [->|N].
    + subst n. cbn in G. lia.
    + specialize (D4 N). assert (16 ^ 6 <= 16 ^ (Z.of_nat n - 1)) by (apply Z.pow_le_mono_r; lia). lia.
  - assert (6 < n)%nat.
    { destruct (Nat.le_gt_cases n 6) as [G|G]; [|exact G].
      assert (16 ^ Z.of_nat n <= 16 ^ 6) by (apply Z.pow_le_mono_r; lia). lia. }
    replace (6 - n)%nat with 0%nat in * by lia. cbn [repeat app]. fold n. split; [assumption|].
    apply D4. lia.
Qed.
Lemma hex6_neg v : v < 0 -> hex6 v = None.
Proof. intros H. unfold hex6. destruct (Z.ltb_spec v 0); [reflexivity|lia]. Qed.
Lemma denotes6 a b c d e f : denotes [a; b; c; d; e; f] = (16 * a + b) * 65536 + (16 * c + d) * 256 + (16 * e + f).
Proof. unfold denotes. cbn [fold_left]. lia. Qed.

Lemma rgb_component_spec v : 0 <= v < 2 ^ 24 -> exists r g b, rgb_component v = Some [r; g; b] /\
  0 <= r < 256 /\ 0 <= g < 256 /\ 0 <= b < 256 /\ r * 65536 + g * 256 + b = v.
Proof.
  intros [H0 H1]. destruct (hex6_spec v H0) as (ds & E & D1 & D2 & D3 & _).
  change (2 ^ 24) with (16 ^ 6) in H1. specialize (D3 H1). unfold rgb_component. rewrite E.
  destruct ds as [|a [|b [|c [|d [|e [|f [|x t]]]]]]]; try discriminate D3.
  rewrite denotes6 in D2.
  assert (B : forall x, In x [a; b; c; d; e; f] -> 0 <= x < 16) by exact D1.
  pose proof (B a ltac:(cbn; auto)). pose proof (B b ltac:(cbn; auto)). pose proof (B c ltac:(cbn; auto)).
  pose proof (B d ltac:(cbn; auto 6)). pose proof (B e ltac:(cbn; auto 7)). pose proof (B f ltac:(cbn; auto 8)).
  do 3 eexists. split; [reflexivity|]. lia.
Qed.
Lemma rgb_component_big v : 2 ^ 24 <= v -> exists r g b k q, rgb_component v = Some [r; g; b] /\
  1 <= k /\ q = v / 16 ^ k /\ 16 ^ 5 <= q < 16 ^ 6 /\
  0 <= r < 256 /\ 0 <= g < 256 /\ 0 <= b < 256 /\ r * 65536 + g * 256 + b = q.
Proof.
  intros H1. change (2 ^ 24) with (16 ^ 6) in H1. assert (H0 : 0 <= v) by lia.
  destruct (hex6_spec v H0) as (ds & E & D1 & D2 & _ & D3). specialize (D3 H1). destruct D3 as [D3 D4].
  unfold rgb_component. rewrite E.
  destruct ds as [|a [|b [|c [|d [|e [|f t]]]]]]; cbn [length] in D3; try lia.
  change (a :: b :: c :: d :: e :: f :: t) with ([a; b; c; d; e; f] ++ t) in *.
  rewrite denotes_app, denotes6 in D2. rewrite app_length in D4. cbn [length] in D4.
  assert (B : forall x, In x [a; b; c; d; e; f] -> 0 <= x < 16) by (intros x Hx; apply D1; apply in_or_app; auto).
  pose proof (B a ltac:(cbn; auto)). pose proof (B b ltac:(cbn; auto)). pose proof (B c ltac:(cbn; auto)).
  pose proof (B d ltac:(cbn; auto 6)). pose proof (B e ltac:(cbn; auto 7)). pose proof (B f ltac:(cbn; auto 8)).
  assert (Bt : 0 <= denotes t < 16 ^ Z.of_nat (length t)).
  { apply denotes_bound. intros x Hx. apply D1. apply in_or_app. auto. }
  set (q := (16 * a + b) * 65536 + (16 * c + d) * 256 + (16 * e + f)) in *.
  assert (Pos : 0 < 16 ^ Z.of_nat (length t)) by (apply Z.pow_pos_nonneg; lia).
  assert (Q : v / 16 ^ Z.of_nat (length t) = q).
  { symmetry. apply (Z.div_unique_pos v _ q (denotes t)); [exact Bt|]. rewrite <- D2. lia. }
  exists (16 * a + b), (16 * c + d), (16 * e + f), (Z.of_nat (length t)), q.
  split; [reflexivity|]. split; [lia|]. split; [symmetry; exact Q|].
  replace (Z.of_nat (6 + length t) - 1) with (5 + Z.of_nat (length t)) in D4 by lia.
  rewrite Z.pow_add_r in D4 by lia.
  split; [|subst q; lia].
  split; [rewrite <- Q; apply Z.div_le_lower_bound; [exact Pos|rewrite Z.mul_comm; exact D4]|]. change (16 ^ 6) with 16777216. subst q. lia.
Qed.
Lemma rgb_component_neg v : v < 0 -> rgb_component v = None.
Proof. intros H. unfold rgb_component. rewrite hex6_neg by exact H. reflexivity. Qed.

Lemma chan_bound (x : Q) : (0 <= x <= 1)%Q -> 0 <= qtrunc (x * 255) < 256 /\
  (inject_Z (qtrunc (x * 255)) <= x * 255 < inject_Z (qtrunc (x * 255)) + 1)%Q.
Proof.
  intros [H0 H1]. assert (0 <= x * 255)%Q by lra. destruct (qtrunc_nonneg _ H) as [P1 P2].
  split; [split; [exact P1|]|exact P2].
  assert (inject_Z (qtrunc (x * 255)) < inject_Z 256)%Q by (change (inject_Z 256) with 256%Q; lra).
  apply inject_Z_lt. exact H2.
Qed.
Lemma rgb_to_value3 x y z : rgb_to_value [x; y; z] = qtrunc (x * 255) * 65536 + qtrunc (y * 255) * 256 + qtrunc (z * 255).
Proof. unfold rgb_to_value. cbn [rgb_sum]. change (65536 / 256) with 256. change (256 / 256) with 1. lia. Qed.
Lemma chan_int r : qtrunc (inject_Z r / 255 * 255) = r.
Proof. rewrite (qtrunc_comp _ (inject_Z r)); [apply qtrunc_Z|]. field. Qed.
Lemma channels_unique r g b r' g' b' : 0 <= g < 256 -> 0 <= b < 256 -> 0 <= g' < 256 -> 0 <= b' < 256 ->
  r * 65536 + g * 256 + b = r' * 65536 + g' * 256 + b' -> r = r' /\ g = g' /\ b = b'.
Proof. lia. Qed.
Lemma value_roundtrip x y z : (0 <= x <= 1)%Q -> (0 <= y <= 1)%Q -> (0 <= z <= 1)%Q ->
  exists r g b, rgb_component (rgb_to_value [x; y; z]) = Some [r; g; b] /\ 0 <= rgb_to_value [x; y; z] < 2 ^ 24 /\
    (inject_Z r <= x * 255 < inject_Z r + 1)%Q /\ (inject_Z g <= y * 255 < inject_Z g + 1)%Q /\ (inject_Z b <= z * 255 < inject_Z b + 1)%Q.
Proof.
  intros Hx Hy Hz. destruct (chan_bound x Hx) as [X1 X2], (chan_bound y Hy) as [Y1 Y2], (chan_bound z Hz) as [Z1 Z2].
  rewrite rgb_to_value3.
  assert (V : 0 <= qtrunc (x * 255) * 65536 + qtrunc (y * 255) * 256 + qtrunc (z * 255) < 2 ^ 24) by (cbn; lia).
  destruct (rgb_component_spec _ V) as (r & g & b & E & R1 & R2 & R3 & R4).
  destruct (channels_unique r g b _ _ _ R2 R3 Y1 Z1 R4) as (-> & -> & ->).
  do 3 eexists. split; [exact E|]. auto.
Qed.

Lemma qtrunc_mono_eq x y : (x == y)%Q -> qtrunc (x * 255) = qtrunc (y * 255).
Proof. intros H. apply qtrunc_comp. rewrite H. reflexivity. Qed.
Lemma rgb_comp x y z x' y' z' : (x == x')%Q -> (y == y')%Q -> (z == z')%Q -> rgb_to_value [x; y; z] = rgb_to_value [x'; y'; z'].
Proof. intros H1 H2 H3. rewrite !rgb_to_value3, (qtrunc_mono_eq x x' H1), (qtrunc_mono_eq y y' H2), (qtrunc_mono_eq z z' H3). reflexivity. Qed.
Lemma cmyk_value c m y k : rgb_value [c; m; y; k] = rgb_value [((1 - c) * (1 - k))%Q; ((1 - m) * (1 - k))%Q; ((1 - y) * (1 - k))%Q].
Proof. unfold rgb_value, cmyk_to_rgb. apply rgb_comp; field. Qed.
