From Verif Require Import ImageModel.
From Coq Require Import Arith NArith Lia List Bool.
Import ListNotations.
Open Scope N_scope.

(** Vocabulary: a character of the base64 alphabet or the padding sign. *)
Definition base64_char (c : ascii) : Prop := In c (list_ascii_of_string alphabet) \/ c = "="%char.

Lemma ascii_bound a : N_of_ascii a < 256. Proof. apply N_ascii_bounded. Qed.

Definition upto (n : nat) : list N := map N.of_nat (seq 0 n).
Lemma upto_in n v : v < N.of_nat n -> In v (upto n).
Proof.
  intros H. unfold upto. apply in_map_iff. exists (N.to_nat v). split; [lia|]. apply in_seq. lia.
Qed.
Lemma value_sextet_all : forallb (fun v => match value (sextet v) with Some w => N.eqb v w | None => false end) (upto 64) = true.
Proof. vm_compute. reflexivity. Qed.
Lemma sextet_not_pad_all : forallb (fun v => negb (Ascii.eqb (sextet v) "=")) (upto 64) = true.
Proof. vm_compute. reflexivity. Qed.
Lemma sextet_alpha_all : forallb (fun v => existsb (Ascii.eqb (sextet v)) (list_ascii_of_string alphabet)) (upto 64) = true.
Proof. vm_compute. reflexivity. Qed.
Lemma value_sextet v : v < 64 -> value (sextet v) = Some v.
Proof.
  intros H. pose proof value_sextet_all as A. rewrite forallb_forall in A. specialize (A v (upto_in 64 v H)).
  destruct (value (sextet v)); [|discriminate]. apply N.eqb_eq in A. subst. reflexivity.
Qed.
Lemma sextet_not_pad v : v < 64 -> Ascii.eqb (sextet v) "=" = false.
Proof.
  intros H. pose proof sextet_not_pad_all as A. rewrite forallb_forall in A. specialize (A v (upto_in 64 v H)).
  apply negb_true_iff in A. exact A.
Qed.
Lemma sextet_alpha v : v < 64 -> base64_char (sextet v).
Proof.
  intros H. pose proof sextet_alpha_all as A. rewrite forallb_forall in A. specialize (A v (upto_in 64 v H)).
  apply existsb_exists in A. destruct A as (c & Hc & E). apply Ascii.eqb_eq in E. left. rewrite E. exact Hc.
Qed.

Lemma div_lt_64 x : x < 256 -> x / 4 < 64. Proof. intros. apply N.div_lt_upper_bound; lia. Qed.
Lemma div16_lt x : x < 256 -> x / 16 < 16. Proof. intros. apply N.div_lt_upper_bound; lia. Qed.
Lemma div64_lt x : x < 256 -> x / 64 < 4. Proof. intros. apply N.div_lt_upper_bound; lia. Qed.
Lemma m4 x : x mod 4 < 4. Proof. apply N.mod_lt. discriminate. Qed.
Lemma m16 x : x mod 16 < 16. Proof. apply N.mod_lt. discriminate. Qed.
Lemma m64 x : x mod 64 < 64. Proof. apply N.mod_lt. discriminate. Qed.
Lemma join_div a b k : b < k -> k <> 0 -> (a * k + b) / k = a.
Proof. intros H K. rewrite N.add_comm, N.div_add by exact K. rewrite N.div_small by exact H. reflexivity. Qed.
Lemma join_mod a b k : b < k -> k <> 0 -> (a * k + b) mod k = b.
Proof. intros H K. rewrite N.add_comm, N.mod_add by exact K. apply N.mod_small, H. Qed.
Lemma rejoin x k : k <> 0 -> x / k * k + x mod k = x.
Proof. intros K. rewrite N.mul_comm. symmetry. apply N.div_mod, K. Qed.

Lemma loop_sextet v t quad left pads : v < 64 ->
  b64loop (String (sextet v) t) quad left pads =
  match quad with
  | 0 => b64loop t 1 v 0
  | 1 => option_map (String (ascii_of_N (left * 4 + v / 16))) (b64loop t 2 (v mod 16) 0)
  | 2 => option_map (String (ascii_of_N (left * 16 + v / 4))) (b64loop t 3 (v mod 4) 0)
  | _ => option_map (String (ascii_of_N (left * 64 + v))) (b64loop t 0 0 0)
  end.
Proof. intros H. cbn [b64loop]. rewrite sextet_not_pad, value_sextet by exact H. reflexivity. Qed.

(** Induction three bytes at a time. *)
Lemma string_ind3 (P : string -> Prop) :
  P EmptyString -> (forall a, P (String a EmptyString)) -> (forall a b, P (String a (String b EmptyString))) ->
  (forall a b c t, P t -> P (String a (String b (String c t)))) -> forall s, P s.
Proof.
  intros H0 H1 H2 H3.
  fix IH 1. intros [|a [|b [|c t]]]; [exact H0|apply H1|apply H2|apply H3, IH].
Qed.

Theorem decode_encode s : b64decode (b64encode s) = Some s.
Proof.
  unfold b64decode. induction s as [|a|a b|a b c t IH] using string_ind3.
  - reflexivity.
  - cbn [b64encode]. cbv zeta. pose proof (ascii_bound a) as A. set (x := N_of_ascii a) in *.
    pose proof (div_lt_64 x A). pose proof (m4 x).
    rewrite loop_sextet by lia. rewrite loop_sextet by lia. cbv beta iota.
    rewrite <- (N.add_0_r (x mod 4 * 16)), join_div by lia.
    rewrite rejoin by lia. subst x. rewrite ascii_N_embedding. reflexivity.
  - cbn [b64encode]. cbv zeta. pose proof (ascii_bound a) as A. pose proof (ascii_bound b) as B.
    set (x := N_of_ascii a) in *. set (y := N_of_ascii b) in *.
    pose proof (div_lt_64 x A). pose proof (m4 x). pose proof (div16_lt y B). pose proof (m16 y).
    rewrite !loop_sextet by lia. cbv beta iota.
    rewrite join_div, join_mod by lia. rewrite <- (N.add_0_r (y mod 16 * 4)), join_div by lia.
    rewrite !rejoin by lia. subst x y. rewrite !ascii_N_embedding. reflexivity.
  - cbn [b64encode]. cbv zeta. pose proof (ascii_bound a) as A. pose proof (ascii_bound b) as B. pose proof (ascii_bound c) as C.
    set (x := N_of_ascii a) in *. set (y := N_of_ascii b) in *. set (z := N_of_ascii c) in *.
    pose proof (div_lt_64 x A). pose proof (m4 x). pose proof (div16_lt y B). pose proof (m16 y).
    pose proof (div64_lt z C). pose proof (m64 z).
    rewrite !loop_sextet by lia. cbv beta iota. rewrite IH.
    rewrite !join_div, !join_mod by lia. rewrite !rejoin by lia. subst x y z. rewrite !ascii_N_embedding. reflexivity.
Qed.

Lemma encode_length s : String.length (b64encode s) = (4 * ((String.length s + 2) / 3))%nat.
Proof.
  induction s as [|a|a b|a b c t IH] using string_ind3; [reflexivity|reflexivity|reflexivity|].
  cbn [b64encode String.length]. cbv zeta. cbn [String.length]. rewrite IH.
  replace (S (S (S (String.length t))) + 2)%nat with ((String.length t + 2) + 1 * 3)%nat by lia.
  rewrite Nat.div_add by lia. lia.
Qed.

Lemma encode_chars s : Forall base64_char (list_ascii_of_string (b64encode s)).
Proof.
  assert (P : base64_char "=") by (right; reflexivity).
  induction s as [|a|a b|a b c t IH] using string_ind3; cbn [b64encode list_ascii_of_string]; cbv zeta; cbn [list_ascii_of_string].
  - constructor.
  - pose proof (ascii_bound a) as A. set (x := N_of_ascii a) in *. pose proof (div_lt_64 x A). pose proof (m4 x).
    repeat apply Forall_cons; try apply Forall_nil; try exact P; apply sextet_alpha; lia.
  - pose proof (ascii_bound a) as A. pose proof (ascii_bound b) as B.
    set (x := N_of_ascii a) in *. set (y := N_of_ascii b) in *.
    pose proof (div_lt_64 x A). pose proof (m4 x). pose proof (div16_lt y B). pose proof (m16 y).
    repeat apply Forall_cons; try apply Forall_nil; try exact P; apply sextet_alpha; lia.
  - pose proof (ascii_bound a) as A. pose proof (ascii_bound b) as B. pose proof (ascii_bound c) as C.
    set (x := N_of_ascii a) in *. set (y := N_of_ascii b) in *. set (z := N_of_ascii c) in *.
    pose proof (div_lt_64 x A). pose proof (m4 x). pose proof (div16_lt y B). pose proof (m16 y).
    pose proof (div64_lt z C). pose proof (m64 z).
    repeat apply Forall_cons; try exact IH; apply sextet_alpha; lia.
Qed.
