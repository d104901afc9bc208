From Verif Require Import RawSpec.
From Coq Require Import List Lia Sorted Permutation.
Open Scope nat_scope.

Lemma same_place_iff a b : same_place a b = true <-> at_place a b.
Proof.
  unfold same_place, at_place, place, rcoords. destruct (list_eq_dec Z.eq_dec _ _) as [E|E].
  - split; [intros _|reflexivity]. cbn [map] in E. injection E as E1 E2 E3 E4. auto.
  - split; [discriminate|]. intros (E1 & E2 & E3 & E4). destruct E. cbn [map]. rewrite E1, E2, E3, E4. reflexivity.
Qed.
Lemma at_place_sym a b : at_place a b -> at_place b a.
Proof. unfold at_place. intuition. Qed.
Lemma is_image_iff b : is_image b = true <-> rb_type b = 1%Z.
Proof. apply Z.eqb_eq. Qed.

Lemma update_length k f bs : length (update_at k f bs) = length bs.
Proof. revert k. induction bs as [|b t IH]; intros [|k]; cbn; congruence. Qed.
Lemma update_nth k f bs i : nth_error (update_at k f bs) i = if Nat.eqb k i then option_map f (nth_error bs i) else nth_error bs i.
Proof.
  revert k i. induction bs as [|b t IH]; intros [|k] [|i]; cbn; try reflexivity.
  - destruct (k =? i); reflexivity.
  - apply IH.
Qed.
Lemma updates_length l f bs : length (fold_left (fun acc k => update_at k f acc) l bs) = length bs.
Proof. revert bs. induction l as [|k l IH]; intros bs; cbn; [reflexivity|]. rewrite IH. apply update_length. Qed.
Lemma updates_nth l f bs i : (forall b, f (f b) = f b) ->
  nth_error (fold_left (fun acc k => update_at k f acc) l bs) i = if existsb (Nat.eqb i) l then option_map f (nth_error bs i) else nth_error bs i.
Proof.
  intros Hf. revert bs. induction l as [|k l IH]; intros bs; [reflexivity|]. cbn [fold_left existsb]. rewrite IH, update_nth.
  rewrite (Nat.eqb_sym k i). destruct (Nat.eqb_spec i k) as [->|N]; cbn [orb].
  - destruct (existsb (Nat.eqb k) l); destruct (nth_error bs k); cbn; rewrite ?Hf; reflexivity.
  - reflexivity.
Qed.

Section H.
Variable hash : string -> Z.
(* -------- the groups -------- *)
Definition good (bs : list rblock) (gs : list (Z * list nat)) : Prop :=
  NoDup (map fst gs) /\
  (forall h l, In (h, l) gs -> l <> [] /\ forall k, In k l <-> picture hash bs h k) /\
  (forall h k, picture hash bs h k -> In h (map fst gs)) /\
  StronglySorted (fun g g' => exists k0, In k0 (snd g) /\ forall k', In k' (snd g') -> k0 < k') gs.

Lemma picture_app bs b h k : picture hash (bs ++ [b]) h k <->
  picture hash bs h k \/ (k = length bs /\ rb_type b = 1%Z /\ hash (rb_bytes b) = h).
Proof.
  unfold picture. split.
  - intros (c & E & T & Hh). destruct (Nat.lt_ge_cases k (length bs)) as [L|L].
    + left. exists c. rewrite nth_error_app1 in E by exact L. auto.
    + right. rewrite nth_error_app2 in E by exact L. destruct (k - length bs) as [|m] eqn:D; cbn in E.
      * injection E as <-. split; [lia|auto].
      * destruct m; discriminate.
  - intros [(c & E & T & Hh)|(-> & T & Hh)].
    + exists c. rewrite nth_error_app1; [auto|]. apply nth_error_Some. congruence.
    + exists b. rewrite nth_error_app2, Nat.sub_diag by lia. auto.
Qed.
Lemma picture_lt bs h k : picture hash bs h k -> k < length bs.
Proof. intros (b & E & _). apply nth_error_Some. congruence. Qed.

Lemma add_group_keys h k gs : map fst (add_group h k gs) = if in_dec Z.eq_dec h (map fst gs) then map fst gs else map fst gs ++ [h].
Proof.
  induction gs as [|(h', l) t IH]; [reflexivity|]. cbn [add_group]. destruct (Z.eqb_spec h h') as [->|N].
  - cbn [map fst]. destruct (in_dec Z.eq_dec h' (h' :: map fst t)) as [_|X]; [reflexivity|]. destruct X. left. reflexivity.
  - cbn [map fst]. rewrite IH. destruct (in_dec Z.eq_dec h (map fst t)) as [I|I]; destruct (in_dec Z.eq_dec h (h' :: map fst t)) as [J|J]; try reflexivity.
    + destruct J. right. exact I.
    + destruct J as [J|J]; [congruence|contradiction].
Qed.
Lemma add_group_In h k gs h' l : NoDup (map fst gs) -> In (h', l) (add_group h k gs) ->
  (h' <> h /\ In (h', l) gs) \/
  (h' = h /\ exists l0, l = l0 ++ [k] /\ (In (h, l0) gs \/ (l0 = [] /\ ~ In h (map fst gs)))).
Proof.
  induction gs as [|(g, m) t IH]; intros Nd H; cbn in Nd.
  - destruct H as [E|[]]. injection E as <- <-. right. split; [reflexivity|]. exists []. split; [reflexivity|]. right. cbn. auto.
  - inversion Nd as [|x y Hn Nd']; subst. cbn [add_group] in H. destruct (Z.eqb_spec h g) as [->|N].
    + destruct H as [E|H].
      * injection E as <- <-. right. split; [reflexivity|]. exists m. split; [reflexivity|]. left. left. reflexivity.
      * left. split; [|right; exact H]. intros ->. apply Hn. apply (in_map fst) in H. exact H.
    + destruct H as [E|H].
      * injection E as <- <-. left. split; [congruence|left; reflexivity].
      * destruct (IH Nd' H) as [[A B]|[A (l0 & B & [C|[C D]])]].
        -- left. split; [exact A|right; exact B].
        -- right. split; [exact A|]. exists l0. split; [exact B|]. left. right. exact C.
        -- right. split; [exact A|]. exists l0. split; [exact B|]. right. split; [exact C|]. intros [F|F]; [cbn in F; congruence|contradiction].
Qed.
Lemma add_group_sorted h k gs :
  StronglySorted (fun g g' => exists k0, In k0 (snd g) /\ forall k', In k' (snd g') -> k0 < k') gs ->
  (forall g, In g gs -> exists k0, In k0 (snd g)) -> (forall g k', In g gs -> In k' (snd g) -> k' < k) ->
  StronglySorted (fun g g' => exists k0, In k0 (snd g) /\ forall k', In k' (snd g') -> k0 < k') (add_group h k gs).
Proof.
  induction gs as [|(g, m) t IH]; intros S Ne Lt.
  - cbn. constructor; constructor.
  - inversion S as [|x y S' F]; subst. cbn [add_group]. destruct (h =? g)%Z eqn:E.
    + constructor; [exact S'|]. rewrite Forall_forall in F |- *. intros x Hx. destruct (F x Hx) as (k0 & A & B).
      exists k0. split; [cbn [snd]; apply in_or_app; left; exact A|exact B].
    + constructor.
      * apply IH; [exact S'|intros; apply Ne; right; assumption|intros g0 k' H1 H2; apply (Lt g0 k'); [right; exact H1|exact H2]].
      * rewrite Forall_forall in F |- *. intros x Hx.
        assert (X : In x t \/ (exists l0, snd x = l0 ++ [k] /\ (l0 = [] \/ exists g0, In g0 t /\ snd g0 = l0))).
        { clear -Hx. induction t as [|(a, b) t IH]; cbn [add_group] in Hx.
          - destruct Hx as [<-|[]]. right. exists []. split; [reflexivity|auto].
          - destruct (h =? a)%Z.
            + destruct Hx as [<-|Hx]; [|left; right; exact Hx]. right. exists b. split; [reflexivity|]. right. exists (a, b). split; [left; reflexivity|reflexivity].
            + destruct Hx as [<-|Hx]; [left; left; reflexivity|]. destruct (IH Hx) as [I|(l0 & P & [Q|(g0 & Q & R)])].
              * left. right. exact I.
              * right. exists l0. auto.
              * right. exists l0. split; [exact P|]. right. exists g0. split; [right; exact Q|exact R]. }
        destruct X as [X|(l0 & P & [->|(g0 & Q & R)])].
        -- apply F. exact X.
        -- destruct (Ne (g, m) (or_introl eq_refl)) as (k0 & A). exists k0. split; [exact A|]. rewrite P. intros k' [<-|[]]. apply (Lt (g, m) k0); [left; reflexivity|exact A].
        -- destruct (F g0 Q) as (k0 & A & B). exists k0. split; [exact A|]. rewrite P. intros k' Hk. apply in_app_or in Hk. destruct Hk as [Hk|[<-|[]]].
           ++ apply B. rewrite R. exact Hk.
           ++ apply (Lt (g, m) k0); [left; reflexivity|exact A].
Qed.
Lemma good_step bs b gs : good bs gs -> good (bs ++ [b]) (if is_image b then add_group (hash (rb_bytes b)) (length bs) gs else gs).
Proof.
  intros (N & I & C & S). destruct (is_image b) eqn:T.
  - apply is_image_iff in T. set (h := hash (rb_bytes b)). repeat split.
    + rewrite add_group_keys. destruct (in_dec Z.eq_dec h (map fst gs)) as [Y|Y]; [exact N|].
      apply (Permutation_NoDup (l := h :: map fst gs)); [apply Permutation_cons_append|]. constructor; assumption.
    + destruct (add_group_In h (length bs) gs h0 l N H) as [[A B]|[A (l0 & -> & _)]]; [apply (I h0 l B)|]. destruct l0; discriminate.
    + intros Hk. apply picture_app. destruct (add_group_In h (length bs) gs h0 l N H) as [[A B]|[-> (l0 & -> & D)]].
      * left. apply (I h0 l B). exact Hk.
      * apply in_app_or in Hk. destruct Hk as [Hk|[<-|[]]]; [|right; auto]. left. destruct D as [D|[-> _]]; [apply (I h l0 D); exact Hk|destruct Hk].
    + intros Hp. apply picture_app in Hp. destruct (add_group_In h (length bs) gs h0 l N H) as [[A B]|[-> (l0 & -> & D)]].
      * destruct Hp as [Hp|(_ & _ & E)]; [|unfold h in A; congruence]. apply (I h0 l B). exact Hp.
      * apply in_or_app. destruct Hp as [Hp|(-> & _)]; [left|right; left; reflexivity].
        destruct D as [D|[_ D]]; [apply (I h l0 D); exact Hp|]. destruct D. apply (C h k Hp).
    + intros h0 k Hp. rewrite add_group_keys. apply picture_app in Hp. destruct (in_dec Z.eq_dec h (map fst gs)) as [Y|Y].
      * destruct Hp as [Hp|(_ & _ & E)]; [apply (C h0 k Hp)|]. fold h in E. rewrite <- E. exact Y.
      * apply in_or_app. destruct Hp as [Hp|(_ & _ & E)]; [left; apply (C h0 k Hp)|right; left; exact E].
    + apply add_group_sorted; [exact S| |].
      * intros (h0, l) Hg. destruct (I h0 l Hg) as [X _]. destruct l as [|k0 l]; [congruence|]. exists k0. left. reflexivity.
      * intros (h0, l) k' Hg Hk. apply (picture_lt bs h0). apply (I h0 l Hg). exact Hk.
  - assert (T' : rb_type b <> 1%Z) by (intros X; apply is_image_iff in X; congruence).
    repeat split; [exact N| | | | |exact S].
    + apply (I h l H).
    + intros Hk. apply picture_app. left. apply (I h l H). exact Hk.
    + intros Hp. apply picture_app in Hp. destruct Hp as [Hp|(_ & X & _)]; [apply (I h l H); exact Hp|contradiction].
    + intros h k Hp. apply picture_app in Hp. destruct Hp as [Hp|(_ & X & _)]; [apply (C h k Hp)|contradiction].
Qed.
Lemma good_all bs : good bs (groups_from hash 0 bs []).
Proof.
  assert (X : forall t p gs, good p gs -> good (p ++ t) (groups_from hash (length p) t gs)).
  { induction t as [|b t IH]; intros p gs G; cbn [groups_from]; [rewrite app_nil_r; exact G|].
    replace (p ++ b :: t) with ((p ++ [b]) ++ t) by (rewrite <- app_assoc; reflexivity).
    replace (S (length p)) with (length (p ++ [b])) by (rewrite app_length; cbn; lia).
    apply IH. apply good_step. exact G. }
  apply (X bs [] []). split; [constructor|]. split; [intros h l []|]. split; [|constructor].
  intros h k (b & E & _). destruct k; discriminate.
Qed.

(* -------- the loop -------- *)
(** Same boxes as the first blocks of the page. *)
Definition framed (bs acc : list rblock) : Prop := exists out tail, acc = out ++ tail /\ map rb_box out = map rb_box bs.
Lemma framed_nth bs acc k b : framed bs acc -> nth_error bs k = Some b -> exists c, nth_error acc k = Some c /\ rb_box c = rb_box b.
Proof.
  intros (out & tail & -> & E) H. assert (L : length out = length bs) by (rewrite <- (map_length rb_box out), E, map_length; reflexivity).
  assert (K : k < length out) by (rewrite L; apply nth_error_Some; congruence).
  rewrite nth_error_app1 by exact K. destruct (nth_error out k) as [c|] eqn:F; [|apply nth_error_None in F; lia].
  exists c. split; [reflexivity|]. apply (map_nth_error rb_box) in F. apply (map_nth_error rb_box) in H. rewrite E in F. congruence.
Qed.
Lemma same_images_iff r bs acc gs h l : framed bs acc -> good bs gs -> In (h, l) gs ->
  same_images r acc l = true <-> shows_at hash bs h r.
Proof.
  intros F (N & I & C & S) Hg. unfold same_images. rewrite existsb_exists. destruct (I h l Hg) as [_ P]. split.
  - intros (k & Hk & E). apply P in Hk. destruct Hk as (b & Hb & T & Hh). destruct (framed_nth bs acc k b F Hb) as (c & Hc & Ec).
    rewrite Hc in E. apply same_place_iff in E. exists k, b. split; [exists b; auto|]. split; [exact Hb|]. unfold at_place in *. rewrite Ec in E. exact E.
  - intros (k & b & Hk & Hb & E). exists k. split; [apply P; exact Hk|]. destruct (framed_nth bs acc k b F Hb) as (c & Hc & Ec).
    rewrite Hc. apply same_place_iff. unfold at_place in *. rewrite Ec. exact E.
Qed.
Lemma sorted_before {A} (R : A -> A -> Prop) l a b : StronglySorted R l -> forall p q, l = p ++ a :: q -> In b q -> R a b.
Proof.
  intros S p. revert l S. induction p as [|x p IH]; intros l S q -> Hb; inversion S as [|? ? S' F]; subst.
  - rewrite Forall_forall in F. apply F. exact Hb.
  - eapply IH; [exact S'|reflexivity|exact Hb].
Qed.
Lemma find_split {A} (f : A -> bool) l x : find f l = Some x -> exists p q, l = p ++ x :: q /\ f x = true /\ forall y, In y p -> f y = false.
Proof.
  induction l as [|a t IH]; cbn; [discriminate|]. destruct (f a) eqn:E.
  - intros X. injection X as <-. exists [], t. cbn. tauto.
  - intros X. destruct (IH X) as (p & q & -> & A1 & A2). exists (a :: p), q. split; [reflexivity|]. split; [exact A1|]. intros y [<-|Hy]; auto.
Qed.
Lemma find_taken bs acc gs r : framed bs acc -> good bs gs ->
  match find (fun g => same_images r acc (snd g)) gs with
  | Some (h, l) => In (h, l) gs /\ taken_for hash bs r h
  | None => forall h, ~ shows_at hash bs h r
  end.
Proof.
  intros F G. destruct (find _ gs) as [(h, l)|] eqn:E.
  - destruct (find_split _ _ _ E) as (p & q & Eg & T & U).
    assert (Hg : In (h, l) gs) by (rewrite Eg; apply in_or_app; right; left; reflexivity). split; [exact Hg|].
    split; [apply (same_images_iff r bs acc gs h l F G Hg); exact T|].
    intros h' (k & b & Hp & Hb & Hr) Hne. pose proof G as (N & I & C & S).
    pose proof (C h' k Hp) as K. apply in_map_iff in K. destruct K as ((h2, l') & E2 & Hg'). cbn in E2. subst h2.
    assert (W : same_images r acc l' = true).
    { apply (same_images_iff r bs acc gs h' l' F G Hg'). exists k, b. auto. }
    rewrite Eg in Hg'. apply in_app_or in Hg'. destruct Hg' as [Hg'|[Hg'|Hg']].
    + apply U in Hg'. cbn [snd] in Hg'. rewrite W in Hg'. discriminate.
    + congruence.
    + destruct (sorted_before _ gs (h, l) (h', l') S p q Eg Hg') as (k0 & A1 & A2). cbn [snd] in *. exists k0. split; [apply (I h l Hg); exact A1|].
      intros k' Hk'. apply A2. assert (Hg2 : In (h', l') gs) by (rewrite Eg; apply in_or_app; right; right; exact Hg'). apply (I h' l' Hg2). exact Hk'.
  - intros h (k & b & Hp & Hb & Hr). pose proof G as (N & I & C & S). pose proof (C h k Hp) as K. apply in_map_iff in K.
    destruct K as ((h2, l) & E2 & Hg). cbn in E2. subst h2. apply (find_none _ _ E) in Hg as X. cbn [snd] in X.
    assert (W : same_images r acc l = true) by (apply (same_images_iff r bs acc gs h l F G Hg); exists k, b; auto). congruence.
Qed.
Lemma taken_unique bs r h h' : taken_for hash bs r h -> taken_for hash bs r h' -> h = h'.
Proof.
  intros (A & B) (C & D). destruct (Z.eq_dec h' h) as [E|E]; [auto|]. exfalso. destruct (B h' C E) as (k & P & Q). destruct (D h A (fun X => E (eq_sym X))) as (k' & P' & Q').
  specialize (Q k' P'). specialize (Q' k P). lia.
Qed.
(** What the block [b] has become after the extracted images [rs] have been matched, [b0] being
    what it was before. *)
Definition outcome (bs rs : list rblock) (b b0 b' : rblock) : Prop :=
  (rb_type b <> 1%Z /\ b' = b0) \/
  (rb_type b = 1%Z /\ (forall r, In r rs -> ~ taken_for hash bs r (hash (rb_bytes b))) /\ b' = b0) \/
  (rb_type b = 1%Z /\ exists p r q, rs = p ++ r :: q /\ taken_for hash bs r (hash (rb_bytes b)) /\
     (forall r', In r' q -> ~ taken_for hash bs r' (hash (rb_bytes b))) /\ b' = mkRB 1 (rb_box b0) (rb_bytes r) (rb_rest b0)).
Lemma loop_spec bs gs : good bs gs -> forall rs acc_out tail, map rb_box acc_out = map rb_box bs ->
  exists out tl, match_images gs rs (acc_out ++ tail) = out ++ tail ++ tl /\ map rb_box out = map rb_box bs /\
    (forall k b b0, nth_error bs k = Some b -> nth_error acc_out k = Some b0 -> exists b', nth_error out k = Some b' /\ outcome bs rs b b0 b') /\
    (forall r, In r tl -> In r rs /\ forall h, ~ shows_at hash bs h r) /\
    (forall f, (forall r, In r rs -> f r = true <-> forall h, ~ shows_at hash bs h r) -> tl = filter f rs).
Proof.
  intros G. induction rs as [|r rs IH]; intros ao tail Hm.
  - exists ao, []. cbn [match_images]. rewrite app_nil_r. split; [reflexivity|]. split; [exact Hm|]. split; [|split].
    + intros k b b0 Hb H0. exists b0. split; [exact H0|]. destruct (Z.eq_dec (rb_type b) 1) as [T|T]; [right; left|left; auto]. split; [exact T|]. split; [intros r []|reflexivity].
    + intros r [].
    + reflexivity.
  - cbn [match_images]. assert (F : framed bs (ao ++ tail)) by (exists ao, tail; auto).
    pose proof (find_taken bs (ao ++ tail) gs r F G) as T. destruct (find _ gs) as [(h, l)|] eqn:E.
    + destruct T as [Hg Tk]. cbn [snd].
      set (f := set_image (rb_bytes r)).
      assert (Ff : forall b, f (f b) = f b) by (intros b; reflexivity).
      pose proof G as (N & I & C & S). destruct (I h l Hg) as [_ P].
      assert (La : length ao = length bs) by (rewrite <- (map_length rb_box ao), Hm, map_length; reflexivity).
      assert (Sp : fold_left (fun acc k => update_at k f acc) l (ao ++ tail) = fold_left (fun acc k => update_at k f acc) l ao ++ tail).
      { assert (Lt : forall k, In k l -> k < length ao) by (intros k Hk; rewrite La; apply P in Hk; apply (picture_lt bs h); exact Hk).
        clear - Lt. revert ao Lt. induction l as [|k l IH]; intros ao Lt; [reflexivity|]. cbn [fold_left].
        replace (update_at k f (ao ++ tail)) with (update_at k f ao ++ tail).
        - apply IH. intros k' Hk'. rewrite update_length. apply Lt. right. exact Hk'.
        - specialize (Lt k (or_introl eq_refl)). clear - Lt. revert k Lt. induction ao as [|a t IHa]; intros k Lt; [cbn in Lt; lia|]. destruct k; cbn; [reflexivity|].
          rewrite IHa; [reflexivity|cbn in Lt; lia]. }
      assert (Bx : map rb_box (fold_left (fun acc k => update_at k f acc) l ao) = map rb_box bs).
      { rewrite <- Hm. clear. revert ao. induction l as [|k l IH]; intros ao; [reflexivity|]. cbn [fold_left]. rewrite IH.
        clear. revert k. induction ao as [|a t IHa]; intros [|k]; cbn; [reflexivity|reflexivity|reflexivity|]. rewrite IHa. reflexivity. }
      rewrite Sp. destruct (IH _ tail Bx) as (out & tl & E1 & E2 & E3 & E4 & E5). exists out, tl. split; [exact E1|]. split; [exact E2|]. split; [|split].
      * intros k b b0 Hb H0.
        assert (Hx : nth_error (fold_left (fun acc k => update_at k f acc) l ao) k = Some (if existsb (Nat.eqb k) l then f b0 else b0)).
        { rewrite updates_nth by exact Ff. rewrite H0. destruct (existsb (Nat.eqb k) l); reflexivity. }
        destruct (E3 k b _ Hb Hx) as (b' & Hb' & O). exists b'. split; [exact Hb'|].
        assert (Hit : existsb (Nat.eqb k) l = true <-> rb_type b = 1%Z /\ hash (rb_bytes b) = h).
        { rewrite existsb_exists. split.
          - intros (k' & Hk & Ek). apply Nat.eqb_eq in Ek. subst k'. apply P in Hk. destruct Hk as (c & Hc & Tc & Hh). rewrite Hb in Hc. injection Hc as <-. auto.
          - intros [Tb Hh]. exists k. split; [|apply Nat.eqb_refl]. apply P. exists b. auto. }
        destruct O as [[Tb Eb]|[(Tb & No & Eb)|(Tb & p & r' & q & Er & Tk' & No & Eb)]].
        -- left. split; [exact Tb|]. rewrite Eb. destruct (existsb (Nat.eqb k) l); [|reflexivity]. destruct (proj1 Hit eq_refl). contradiction.
        -- destruct (existsb (Nat.eqb k) l) eqn:X.
           ++ right. right. split; [exact Tb|]. exists [], r, rs. split; [reflexivity|]. destruct (proj1 Hit eq_refl) as [_ Hh]. rewrite Hh in *. split; [exact Tk|]. split; [exact No|]. rewrite Eb. reflexivity.
           ++ right. left. split; [exact Tb|]. split; [|exact Eb]. intros r' [<-|Hr'] Y; [|apply (No r' Hr' Y)].
              pose proof (taken_unique bs r _ _ Tk Y) as Z. assert (false = true) by (apply Hit; split; [exact Tb|congruence]). discriminate.
        -- right. right. split; [exact Tb|]. exists (r :: p), r', q. split; [rewrite Er; reflexivity|]. split; [exact Tk'|]. split; [exact No|].
           rewrite Eb. destruct (existsb (Nat.eqb k) l); reflexivity.
      * intros r' Hr'. destruct (E4 r' Hr') as [A B]. split; [right; exact A|exact B].
      * intros fl Hfl. cbn [filter]. assert (fl r = false) as ->.
        { destruct (fl r) eqn:Y; [|reflexivity]. pose proof (proj1 (Hfl r (or_introl eq_refl)) Y) as Y'. destruct Tk as [W _]. destruct (Y' h W). }
        apply E5. intros r' Hr'. apply Hfl. right. exact Hr'.
    + replace ((ao ++ tail) ++ [r]) with (ao ++ (tail ++ [r])) by (rewrite app_assoc; reflexivity).
      destruct (IH ao (tail ++ [r]) Hm) as (out & tl & E1 & E2 & E3 & E4 & E5). exists out, (r :: tl).
      split; [rewrite E1; rewrite <- app_assoc; reflexivity|]. split; [exact E2|]. split; [|split].
      * intros k b b0 Hb H0. destruct (E3 k b b0 Hb H0) as (b' & Hb' & O). exists b'. split; [exact Hb'|].
        destruct O as [O|[(Tb & No & Eb)|(Tb & p & r' & q & Er & Tk' & No & Eb)]]; [left; exact O| |].
        -- right. left. split; [exact Tb|]. split; [|exact Eb]. intros r' [<-|Hr'] Y; [|apply (No r' Hr' Y)]. destruct Y as [Y _]. apply (T _ Y).
        -- right. right. split; [exact Tb|]. exists (r :: p), r', q. split; [rewrite Er; reflexivity|]. auto.
      * intros r' [<-|Hr']; [split; [left; reflexivity|exact T]|]. destruct (E4 r' Hr') as [A B]. split; [right; exact A|exact B].
      * intros fl Hfl. cbn [filter]. assert (fl r = true) as ->. { apply Hfl; [left; reflexivity|exact T]. }
        f_equal. apply E5. intros r' Hr'. apply Hfl. right. exact Hr'.
Qed.
End H.
