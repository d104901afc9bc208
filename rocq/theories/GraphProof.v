From Verif Require Import GraphModel GraphSpec.
From Coq Require Import Relations.

Lemma memb_In x l : memb x l = true <-> In x l.
Proof.
  unfold memb. rewrite existsb_exists. split.
  - intros (y & Hy & E). apply Nat.eqb_eq in E. subst. exact Hy.
  - intros H. exists x. split; [exact H|apply Nat.eqb_refl].
Qed.
Lemma memb_nIn x l : memb x l = false <-> ~ In x l.
Proof. rewrite <- memb_In. destruct (memb x l); split; congruence. Qed.

(** Termination measure: queue plus edges of nodes not searched yet. *)
Fixpoint pending (g : list (list nat)) (i : nat) (out : list nat) : nat :=
  match g with
  | [] => 0
  | ns :: t => (if memb i out then 0 else length ns) + pending t (S i) out
  end.

Lemma pending_skip g : forall i out x, x < i -> pending g i (x :: out) = pending g i out.
Proof.
  induction g as [|ns t IH]; intros i out x Hx; cbn [pending]; [reflexivity|].
  rewrite IH by lia. f_equal.
  replace (memb i (x :: out)) with (memb i out); [reflexivity|].
  cbn. destruct (Nat.eqb_spec i x); [lia|reflexivity].
Qed.

Lemma pending_add g : forall i out k ns, nth_error g k = Some ns -> ~ In (i + k) out ->
  pending g i out = length ns + pending g i ((i + k) :: out).
Proof.
  induction g as [|ms t IH]; intros i out k ns Hk Hn; [destruct k; discriminate|].
  destruct k as [|k]; cbn [nth_error] in Hk.
  - injection Hk as ->. cbn [pending]. rewrite Nat.add_0_r in *.
    apply memb_nIn in Hn. rewrite Hn.
    replace (memb i (i :: out)) with true by (cbn; rewrite Nat.eqb_refl; reflexivity).
    rewrite pending_skip by lia. lia.
  - cbn [pending]. replace (i + S k) with (S i + k) in * by lia.
    rewrite (IH (S i) out k ns Hk Hn).
    replace (memb i (S i + k :: out)) with (memb i out); [lia|].
    cbn [memb existsb]. destruct (Nat.eqb_spec i (S i + k)); [lia|reflexivity].
Qed.

Lemma pending_nil g i : pending g i [] = length (concat g).
Proof. revert i. induction g as [|ns t IH]; intros i; cbn; [reflexivity|]. rewrite app_length, IH. reflexivity. Qed.

Lemma nth_error_Some_lt {A} (l : list A) k : k < length l -> exists x, nth_error l k = Some x.
Proof. intros H. destruct (nth_error l k) as [x|] eqn:E; [exists x; reflexivity|]. apply nth_error_None in E. lia. Qed.

Definition closed_under g (out queue : list nat) : Prop :=
  forall a b, In a out -> edge g a b -> In b out \/ In b queue.

Lemma bfs_loop_correct g s (Hr : in_range g) : forall fuel queue out,
  length queue + pending g 0 out < fuel ->
  (forall x, In x queue -> x < length g) ->
  NoDup out ->
  (forall x, In x queue \/ In x out -> reach g s x) ->
  closed_under g out queue ->
  (In s queue \/ In s out) ->
  exists l, bfs_loop fuel g queue out = Some l /\ NoDup l /\ (forall x, In x l <-> reach g s x) /\
            (exists l', l = rev out ++ l').
Proof.
  induction fuel as [|fuel IH]; intros queue out Hf Hq Hnd Hreach Hcl Hs; [lia|].
  cbn [bfs_loop]. destruct queue as [|cur q].
  - exists (rev out). split; [reflexivity|]. split; [apply NoDup_rev; exact Hnd|]. split.
    + intros x. rewrite <- in_rev. split; [intros H; apply Hreach; right; exact H|].
      intros H. destruct Hs as [[]|Hs].
      unfold reach in H. apply clos_rt_rtn1 in H. induction H as [|y z Hyz _ IHr]; [exact Hs|].
      destruct (Hcl y z IHr Hyz) as [H|[]]. exact H.
    + exists []. rewrite app_nil_r. reflexivity.
  - destruct (memb cur out) eqn:Em.
    + apply memb_In in Em. apply IH; auto.
      * cbn [length] in Hf. lia.
      * intros x Hx. apply Hq. right. exact Hx.
      * intros x [Hx|Hx]; apply Hreach; [left; right; exact Hx|right; exact Hx].
      * intros a b Ha Hab. destruct (Hcl a b Ha Hab) as [H|[<-|H]]; auto.
      * destruct Hs as [[<-|Hs]|Hs]; auto.
    + apply memb_nIn in Em.
      destruct (nth_error_Some_lt g cur (Hq cur (or_introl eq_refl))) as [ns Hns]. rewrite Hns.
      assert (He : forall b, In b ns -> edge g cur b) by (intros b Hb; exists ns; split; assumption).
      destruct (IH (q ++ ns) (cur :: out)) as (l & H1 & H2 & H3 & (l' & H4)).
      * cbn [length] in Hf. rewrite (pending_add g 0 out cur ns Hns Em) in Hf. rewrite app_length. cbn [Nat.add] in Hf. lia.
      * intros x Hx. apply in_app_or in Hx. destruct Hx as [Hx|Hx]; [apply Hq; right; exact Hx|].
        apply (Hr cur x). apply He. exact Hx.
      * constructor; assumption.
      * intros x [Hx|[<-|Hx]].
        -- apply in_app_or in Hx. destruct Hx as [Hx|Hx]; [apply Hreach; left; right; exact Hx|].
           eapply rt_trans; [apply Hreach; left; left; reflexivity|]. apply rt_step. apply He. exact Hx.
        -- apply Hreach. left. left. reflexivity.
        -- apply Hreach. right. exact Hx.
      * intros a b [<-|Ha] Hab.
        -- right. apply in_or_app. right. destruct Hab as (ns' & E & Hb). rewrite Hns in E. injection E as <-. exact Hb.
        -- destruct (Hcl a b Ha Hab) as [H|[<-|H]]; [left; right; exact H|left; left; reflexivity|].
           right. apply in_or_app. left. exact H.
      * destruct Hs as [[<-|Hs]|Hs].
        -- right. left. reflexivity.
        -- left. apply in_or_app. left. exact Hs.
        -- right. right. exact Hs.
      * exists l. split; [exact H1|]. split; [exact H2|]. split; [exact H3|].
        exists (cur :: l'). rewrite H4. cbn [rev]. rewrite <- app_assoc. reflexivity.
Qed.

Lemma bfs_loop_head g f s l : bfs_loop (S f) g [s] [] = Some l -> exists t, l = s :: t.
Proof.
  cbn [bfs_loop memb existsb]. destruct (nth_error g s) as [ns|]; [|discriminate].
  assert (G : forall f q o l, bfs_loop f g q o = Some l -> exists l', l = rev o ++ l').
  { clear. induction f as [|f IH]; intros q o l H; [discriminate|]. cbn [bfs_loop] in H.
    destruct q as [|c q]; [injection H as <-; exists []; rewrite app_nil_r; reflexivity|].
    destruct (memb c o); [apply (IH _ _ _ H)|]. destruct (nth_error g c); [|discriminate].
    destruct (IH _ _ _ H) as [l' ->]. exists (c :: l'). cbn [rev]. rewrite <- app_assoc. reflexivity. }
  intros H. destruct (G _ _ _ _ H) as [l' ->]. exists l'. reflexivity.
Qed.

Lemma bfs_from_node_correct g s : in_range g -> s < length g ->
  exists l, bfs_from_node g s = Some l /\ NoDup l /\ (forall x, In x l <-> reach g s x) /\ exists t, l = s :: t.
Proof.
  intros Hr Hs. destruct (bfs_loop_correct g s Hr (bfs_fuel g) [s] []) as (l & H1 & H2 & H3 & _).
  - unfold bfs_fuel. rewrite pending_nil. cbn. lia.
  - intros x [<-|[]]. exact Hs.
  - constructor.
  - intros x [[<-|[]]|[]]. apply rt_refl.
  - intros a b [].
  - left. left. reflexivity.
  - exists l. split; [exact H1|]. split; [exact H2|]. split; [exact H3|].
    eapply bfs_loop_head. exact H1.
Qed.

Lemma reach_sym g : symmetric_graph g -> forall a b, reach g a b -> reach g b a.
Proof.
  intros Hs a b H. induction H as [a b H|a|a b c _ IH1 _ IH2].
  - apply rt_step. apply Hs. exact H.
  - apply rt_refl.
  - eapply rt_trans; eassumption.
Qed.

Lemma reach_in_range g a b : in_range g -> a < length g -> reach g a b -> b < length g.
Proof.
  intros Hr Ha H. apply clos_rt_rtn1 in H. induction H as [|y z Hyz _ IH]; [exact Ha|].
  apply (Hr y z Hyz).
Qed.

(** General (directed) graph: existence, coverage, reachability. *)
Lemma graph_bfs_loop_general g (Hr : in_range g) : forall todo counted,
  (forall x, In x todo -> x < length g) ->
  exists gs, graph_bfs_loop g todo counted = Some gs /\
    (forall grp, In grp gs -> NoDup grp /\ exists s t, grp = s :: t /\ In s todo /\ forall x, In x grp <-> reach g s x) /\
    (forall x, In x todo -> In x counted \/ In x (concat gs)).
Proof.
  induction todo as [|i t IH]; intros counted Hlt.
  - exists []. split; [reflexivity|]. split; [intros grp []|intros x []].
  - cbn [graph_bfs_loop]. destruct (memb i counted) eqn:E.
    + destruct (IH counted) as (gs & H1 & H2 & H3); [intros x Hx; apply Hlt; right; exact Hx|].
      exists gs. split; [exact H1|]. split.
      * intros grp Hg. destruct (H2 grp Hg) as (Hn & s & u & Hs1 & Hs2 & Hs3).
        split; [exact Hn|]. exists s, u. split; [exact Hs1|]. split; [right; exact Hs2|exact Hs3].
      * intros x [<-|Hx]; [left; apply memb_In; exact E|apply H3; exact Hx].
    + destruct (bfs_from_node_correct g i Hr (Hlt i (or_introl eq_refl))) as (grp & B1 & B2 & B3 & (u & B4)).
      rewrite B1. destruct (IH (grp ++ counted)) as (gs & H1 & H2 & H3); [intros x Hx; apply Hlt; right; exact Hx|].
      rewrite H1. exists (grp :: gs). split; [reflexivity|]. split.
      * intros g0 [<-|Hg].
        -- split; [exact B2|]. exists i, u. split; [exact B4|]. split; [left; reflexivity|exact B3].
        -- destruct (H2 g0 Hg) as (Hn & s & u2 & Hs1 & Hs2 & Hs3).
           split; [exact Hn|]. exists s, u2. split; [exact Hs1|]. split; [right; exact Hs2|exact Hs3].
      * intros x [<-|Hx].
        -- right. cbn. apply in_or_app. left. apply B3. apply rt_refl.
        -- destruct (H3 x Hx) as [Hx2|Hx2].
           ++ apply in_app_or in Hx2. destruct Hx2 as [Hx2|Hx2]; [|left; exact Hx2].
              right. cbn. apply in_or_app. left. exact Hx2.
           ++ right. cbn. apply in_or_app. right. exact Hx2.
Qed.

Lemma graph_bfs_total g : in_range g ->
  exists gs, graph_bfs g = Some gs /\
    (forall grp, In grp gs -> NoDup grp /\ exists s t, grp = s :: t /\ s < length g /\ forall x, In x grp <-> reach g s x) /\
    (forall x, x < length g <-> In x (concat gs)).
Proof.
  intros Hr. destruct (graph_bfs_loop_general g Hr (seq 0 (length g)) []) as (gs & H1 & H2 & H3).
  - intros x Hx. apply in_seq in Hx. lia.
  - exists gs. split; [exact H1|]. split.
    + intros grp Hg. destruct (H2 grp Hg) as (Hn & s & t & Hs1 & Hs2 & Hs3).
      split; [exact Hn|]. exists s, t. split; [exact Hs1|]. split; [apply in_seq in Hs2; lia|exact Hs3].
    + intros x. split.
      * intros Hx. destruct (H3 x) as [[]|H]; [apply in_seq; lia|exact H].
      * intros Hx. apply in_concat in Hx. destruct Hx as (grp & Hg & Hx).
        destruct (H2 grp Hg) as (_ & s & t & _ & Hs & Hin). apply Hin in Hx.
        apply (reach_in_range g s x Hr); [apply in_seq in Hs; lia|exact Hx].
Qed.

(** Symmetric graph: partition, ordered by smallest member. *)
Lemma graph_bfs_loop_sym g (Hr : in_range g) (Hsym : symmetric_graph g) : forall k i counted gs,
  i + k = length g ->
  (forall x, In x counted -> forall y, reach g x y -> In y counted) ->
  (forall x, x < i -> In x counted) ->
  graph_bfs_loop g (seq i k) counted = Some gs ->
  NoDup (concat gs) /\ (forall x, In x (concat gs) -> ~ In x counted) /\
  (forall grp x, In grp gs -> In x grp -> i <= x) /\
  (forall grp x y, In grp gs -> In x grp -> (In y grp <-> reach g x y)) /\
  (forall a b h1 h2 t1 t2, a < b -> nth_error gs a = Some (h1 :: t1) -> nth_error gs b = Some (h2 :: t2) -> h1 < h2) /\
  (forall grp h t x, In grp gs -> grp = h :: t -> In x grp -> h <= x).
Proof.
  induction k as [|k IH]; intros i counted gs Hik Hcl Hlow H.
  - cbn in H. injection H as <-. cbn. split; [constructor|]. split; [intros x []|]. split; [intros grp x []|].
    split; [intros grp x y []|]. split; [|intros grp h t x []].
    intros a b h1 h2 t1 t2 _ Ha. destruct a; discriminate.
  - cbn [seq graph_bfs_loop] in H. destruct (memb i counted) eqn:E.
    + apply memb_In in E.
      destruct (IH (S i) counted gs) as (P1 & P2 & P3 & P4 & P5 & P6); auto; [lia| |].
      { intros x Hx. destruct (Nat.eq_dec x i) as [->|Hne]; [exact E|apply Hlow; lia]. }
      repeat split; auto; try (apply P4; assumption).
      intros grp x Hg Hx. specialize (P3 grp x Hg Hx). lia.
    + apply memb_nIn in E.
      destruct (bfs_from_node_correct g i Hr ltac:(lia)) as (grp & B1 & B2 & B3 & (u & B4)).
      rewrite B1 in H. destruct (graph_bfs_loop g (seq (S i) k) (grp ++ counted)) as [gs'|] eqn:E2; [|discriminate].
      injection H as <-.
      assert (Hcl' : forall x, In x (grp ++ counted) -> forall y, reach g x y -> In y (grp ++ counted)).
      { intros x Hx y Hy. apply in_or_app. apply in_app_or in Hx. destruct Hx as [Hx|Hx].
        - left. apply B3. apply B3 in Hx. eapply rt_trans; eassumption.
        - right. apply (Hcl x Hx y Hy). }
      assert (Hdisj : forall x, In x grp -> ~ In x counted).
      { intros x Hx Hc. apply B3 in Hx. apply E. apply (Hcl x Hc). apply reach_sym; assumption. }
      assert (Hge : forall x, In x grp -> i <= x).
      { intros x Hx. destruct (le_lt_dec i x) as [Hle|Hlt]; [exact Hle|]. exfalso. apply (Hdisj x Hx). apply Hlow. exact Hlt. }
      destruct (IH (S i) (grp ++ counted) gs') as (P1 & P2 & P3 & P4 & P5 & P6); auto; [lia| |].
      { intros x Hx. apply in_or_app. destruct (Nat.eq_dec x i) as [->|Hne].
        - left. apply B3. apply rt_refl.
        - right. apply Hlow. lia. }
      cbn [concat]. split; [|split; [|split; [|split; [|split]]]].
      * assert (Happ : forall (l1 l2 : list nat), NoDup l1 -> NoDup l2 -> (forall x, In x l2 -> ~ In x l1) -> NoDup (l1 ++ l2)).
        { clear. induction l1 as [|a l1 IHl]; intros l2 Hn1 Hn2 Hd; [exact Hn2|].
          inversion Hn1 as [|? ? Ha Hn1']; subst. cbn. constructor.
          - intros Hin. apply in_app_or in Hin. destruct Hin as [Hin|Hin]; [contradiction|].
            apply (Hd a Hin). left. reflexivity.
          - apply IHl; auto. intros x Hx Hx1. apply (Hd x Hx). right. exact Hx1. }
        apply Happ; auto. intros x Hx Hg. apply (P2 x Hx). apply in_or_app. left. exact Hg.
      * intros x Hx. apply in_app_or in Hx. destruct Hx as [Hx|Hx]; [apply Hdisj; exact Hx|].
        intros Hc. apply (P2 x Hx). apply in_or_app. right. exact Hc.
      * intros g0 x [<-|Hg] Hx; [apply Hge; exact Hx|]. specialize (P3 g0 x Hg Hx). lia.
      * intros g0 x y [<-|Hg] Hx; [|apply P4; assumption].
        split.
        -- intros Hy. apply B3 in Hx. apply B3 in Hy. eapply rt_trans; [apply reach_sym; [exact Hsym|exact Hx]|exact Hy].
        -- intros Hy. apply B3. apply B3 in Hx. eapply rt_trans; eassumption.
      * intros a b h1 h2 t1 t2 Hab Ha Hb. destruct b as [|b]; [lia|]. destruct a as [|a]; cbn [nth_error] in *.
        -- injection Ha as E1. rewrite B4 in E1. injection E1 as <- <-.
           assert (In (h2 :: t2) gs') by (eapply nth_error_In; exact Hb).
           specialize (P3 (h2 :: t2) h2 H (or_introl eq_refl)). lia.
        -- apply (P5 a b h1 h2 t1 t2); [lia|exact Ha|exact Hb].
      * intros g0 h t x [<-|Hg] Eg Hx; [|eapply P6; eassumption].
        rewrite B4 in Eg. injection Eg as <- <-. apply Hge. exact Hx.
Qed.

Lemma graph_bfs_components g : in_range g -> symmetric_graph g ->
  exists gs, graph_bfs g = Some gs /\
    NoDup (concat gs) /\ (forall x, x < length g <-> In x (concat gs)) /\
    (forall grp x y, In grp gs -> In x grp -> (In y grp <-> reach g x y)) /\
    (forall grp, In grp gs -> exists h t, grp = h :: t /\ forall x, In x grp -> h <= x) /\
    (forall a b h1 h2 t1 t2, a < b -> nth_error gs a = Some (h1 :: t1) -> nth_error gs b = Some (h2 :: t2) -> h1 < h2).
Proof.
  intros Hr Hs. destruct (graph_bfs_total g Hr) as (gs & H1 & H2 & H3). exists gs. split; [exact H1|].
  destruct (graph_bfs_loop_sym g Hr Hs (length g) 0 [] gs eq_refl) as (P1 & P2 & P3 & P4 & P5 & P6).
  - intros x Hx. destruct Hx.
  - intros x Hx. lia.
  - exact H1.
  - split; [exact P1|]. split; [exact H3|]. split; [exact P4|]. split; [|exact P5].
    intros grp Hg. destruct (H2 grp Hg) as (_ & h & t & E & _ & _). exists h, t. split; [exact E|].
    intros x Hx. apply (P6 grp h t x); assumption.
Qed.

(* ------------------------------------------------------------------ *)
(** * Grouping *)
Lemma upd_length k f g : length (upd k f g) = length g.
Proof. revert k. induction g as [|x t IH]; intros k; destruct k; cbn; auto. Qed.
Lemma upd_nth k f g j : nth_error (upd k f g) j = if Nat.eqb j k then option_map f (nth_error g j) else nth_error g j.
Proof.
  revert k j. induction g as [|x t IH]; intros k j.
  - destruct k, j; cbn; try reflexivity; destruct (Nat.eqb j k); reflexivity.
  - destruct k, j; cbn; try reflexivity. apply IH.
Qed.
Lemma set_add_In x y l : In y (set_add x l) <-> y = x \/ In y l.
Proof.
  unfold set_add. destruct (memb x l) eqn:E.
  - apply memb_In in E. split; [right; assumption|intros [->|H]; assumption].
  - rewrite in_app_iff. cbn. intuition.
Qed.
Lemma set_add_NoDup x l : NoDup l -> NoDup (set_add x l).
Proof.
  intros H. unfold set_add. destruct (memb x l) eqn:E; [exact H|]. apply memb_nIn in E.
  apply (Permutation_NoDup (l := x :: l)); [apply Permutation_cons_append|constructor; assumption].
Qed.
Lemma link_length i j g : length (link i j g) = length g.
Proof. unfold link. rewrite !upd_length. reflexivity. Qed.
Lemma link_edge i j g a b : i < length g -> j < length g ->
  (edge (link i j g) a b <-> edge g a b \/ (a = i /\ b = j) \/ (a = j /\ b = i)).
Proof.
  intros Hi Hj. unfold edge, link.
  rewrite upd_nth, upd_nth.
  destruct (nth_error_Some_lt g i Hi) as [ni Hni]. destruct (nth_error_Some_lt g j Hj) as [nj Hnj].
  destruct (Nat.eqb_spec a j) as [Eaj|Haj]; destruct (Nat.eqb_spec a i) as [Eai|Hai].
  - subst j. subst i. rewrite Hni. cbn. split.
    + intros (ns & E & H). injection E as <-. rewrite !set_add_In in H.
      destruct H as [->|[->|H]]; auto. left. exists ni. auto.
    + intros H. eexists. split; [reflexivity|]. rewrite !set_add_In.
      destruct H as [(ns & E & H)|[[_ ->]|[_ ->]]]; auto. injection E as <-. auto.
  - subst a. rewrite Hnj. cbn. split.
    + intros (ns & E & H). injection E as <-. rewrite set_add_In in H. destruct H as [->|H]; auto. left. exists nj. auto.
    + intros H. eexists. split; [reflexivity|]. rewrite set_add_In.
      destruct H as [(ns & E & H)|[[H _]|[_ ->]]]; auto; [injection E as <-; auto|congruence].
  - subst a. rewrite Hni. cbn. split.
    + intros (ns & E & H). injection E as <-. rewrite set_add_In in H. destruct H as [->|H]; auto. left. exists ni. auto.
    + intros H. eexists. split; [reflexivity|]. rewrite set_add_In.
      destruct H as [(ns & E & H)|[[_ ->]|[H _]]]; auto; [injection E as <-; auto|congruence].
  - split; [intros H; left; exact H|]. intros [H|[[-> _]|[-> _]]]; [exact H|congruence|congruence].
Qed.

Lemma link_nodup i j g : Forall (@NoDup nat) g -> Forall (@NoDup nat) (link i j g).
Proof.
  intros H. apply Forall_forall. intros ns Hin. apply In_nth_error in Hin. destruct Hin as [k Hk].
  unfold link in Hk. rewrite !upd_nth in Hk.
  assert (G : forall m, nth_error g k = Some m -> NoDup m).
  { intros m Hm. rewrite Forall_forall in H. apply H. eapply nth_error_In. exact Hm. }
  destruct (Nat.eqb k j), (Nat.eqb k i); destruct (nth_error g k) as [m|]; cbn in Hk; try discriminate;
    injection Hk as <-; repeat apply set_add_NoDup; apply G; reflexivity.
Qed.

Section Grp.
Context {A : Type}.
Variable f : A -> A -> bool.

Lemma pairs_In n i j : In (i, j) (pairs n) <-> i < j < n.
Proof.
  unfold pairs. rewrite in_flat_map. split.
  - intros (k & Hk & H). apply in_map_iff in H. destruct H as (m & E & Hm). injection E as <- <-.
    apply in_seq in Hk. apply in_seq in Hm. lia.
  - intros H. exists i. split; [apply in_seq; lia|]. apply in_map_iff. exists j. split; [reflexivity|]. apply in_seq. lia.
Qed.

Lemma adjacency_gen l : forall ps g,
  (forall ij, In ij ps -> fst ij < length g /\ snd ij < length g) ->
  let g' := fold_left (fun g ij => if linked f l ij then link (fst ij) (snd ij) g else g) ps g in
  length g' = length g /\
  (Forall (@NoDup nat) g -> Forall (@NoDup nat) g') /\
  forall a b, edge g' a b <-> edge g a b \/ exists ij, In ij ps /\ linked f l ij = true /\
        ((a = fst ij /\ b = snd ij) \/ (a = snd ij /\ b = fst ij)).
Proof.
  induction ps as [|ij t IH]; intros g Hlt; cbn [fold_left].
  - split; [reflexivity|]. split; [auto|]. intros a b. split; [auto|]. intros [H|(ij & [] & _)]. exact H.
  - assert (Hij := Hlt ij (or_introl eq_refl)).
    set (g1 := if linked f l ij then link (fst ij) (snd ij) g else g).
    assert (Hl1 : length g1 = length g) by (unfold g1; destruct (linked f l ij); [apply link_length|reflexivity]).
    destruct (IH g1) as (P1 & P2 & P3).
    { intros x Hx. rewrite Hl1. apply Hlt. right. exact Hx. }
    split; [congruence|]. split.
    + intros H. apply P2. unfold g1. destruct (linked f l ij); [apply link_nodup; exact H|exact H].
    + intros a b. cbv zeta in P3. rewrite P3. unfold g1.
      destruct (linked f l ij) eqn:E.
      * rewrite link_edge by tauto. split.
        -- intros [[H|H]|(x & Hx & H)]; [left; exact H| |].
           ++ right. exists ij. split; [left; reflexivity|]. split; [exact E|exact H].
           ++ right. exists x. split; [right; exact Hx|exact H].
        -- intros [H|(x & [<-|Hx] & Hx2 & H)]; [left; left; exact H|left; right; exact H|].
           right. exists x. auto.
      * split.
        -- intros [H|(x & Hx & H)]; [left; exact H|]. right. exists x. split; [right; exact Hx|exact H].
        -- intros [H|(x & [<-|Hx] & Hx2 & H)]; [left; exact H|congruence|]. right. exists x. auto.
Qed.

Lemma adjacency_spec l : length (adjacency f l) = length l /\ Forall (@NoDup nat) (adjacency f l) /\
  forall a b, edge (adjacency f l) a b <-> pair_holds f l a b.
Proof.
  unfold adjacency. destruct (adjacency_gen l (pairs (length l)) (repeat [] (length l))) as (P1 & P2 & P3).
  - intros [i j] H. apply pairs_In in H. rewrite repeat_length. cbn. lia.
  - cbv zeta in P3. rewrite repeat_length in P1. split; [exact P1|]. split.
    + apply P2. apply Forall_forall. intros x Hx. apply repeat_spec in Hx. subst. constructor.
    + intros a b. rewrite P3. split.
      * intros [H|([i j] & Hin & Hl & H)].
        -- destruct H as (ns & E & H). apply nth_error_In in E. apply repeat_spec in E. subst. destruct H.
        -- apply pairs_In in Hin. unfold linked in Hl. cbn [fst snd] in *.
           destruct (nth_error l i) as [x|] eqn:Ei; [|discriminate].
           destruct (nth_error l j) as [y|] eqn:Ej; [|discriminate].
           destruct H as [[-> ->]|[-> ->]]; [left|right]; (split; [lia|]; exists x, y; auto).
      * intros H. right. destruct H as [(Hlt & x & y & Hx & Hy & Hf)|(Hlt & x & y & Hx & Hy & Hf)].
        -- assert (b < length l) by (apply nth_error_Some; congruence).
           exists (a, b). split; [apply pairs_In; lia|]. split; [unfold linked; cbn; rewrite Hx, Hy; exact Hf|left; auto].
        -- assert (a < length l) by (apply nth_error_Some; congruence).
           exists (b, a). split; [apply pairs_In; lia|]. split; [unfold linked; cbn; rewrite Hx, Hy; exact Hf|right; auto].
Qed.

Variable order : list nat -> list nat.
Hypothesis order_perm : forall l, Permutation l (order l).

Lemma edge_order g a b : edge (map order g) a b <-> edge g a b.
Proof.
  unfold edge. rewrite nth_error_map. split.
  - intros (ns & E & H). destruct (nth_error g a) as [m|] eqn:Em; cbn in E; [|discriminate].
    injection E as <-. exists m. split; [reflexivity|]. eapply Permutation_in; [apply Permutation_sym; apply order_perm|exact H].
  - intros (ns & E & H). rewrite E. cbn. eexists. split; [reflexivity|]. eapply Permutation_in; [apply order_perm|exact H].
Qed.

Lemma reach_iff (g : list (list nat)) R : (forall a b, edge g a b <-> R a b) ->
  forall a b, reach g a b <-> clos_refl_trans nat R a b.
Proof.
  intros H a b. split; induction 1 as [x y Hxy|x|x y z _ IH1 _ IH2];
    try (apply rt_refl); try (eapply rt_trans; eassumption); apply rt_step; apply H; exact Hxy.
Qed.

Lemma pair_holds_lt l a b : pair_holds f l a b -> a < length l /\ b < length l.
Proof.
  intros [(H & x & y & Hx & Hy & _)|(H & x & y & Hx & Hy & _)]; split; apply nth_error_Some; congruence.
Qed.
Lemma pair_holds_sym l a b : pair_holds f l a b -> pair_holds f l b a.
Proof. intros [H|H]; [right|left]; exact H. Qed.

Lemma Permutation_concat_map (gs : list (list nat)) : Permutation (concat gs) (concat (map order gs)).
Proof.
  induction gs as [|x t IH]; cbn; [constructor|]. apply Permutation_app; [apply order_perm|exact IH].
Qed.

Lemma group_indexes_spec l :
  exists gs, group_indexes f order l = Some gs /\
    NoDup (concat gs) /\ (forall i, i < length l <-> In i (concat gs)) /\
    (forall grp, In grp gs -> grp <> []) /\
    (forall grp i j, In grp gs -> In i grp -> (In j grp <-> chained f l i j)).
Proof.
  destruct (adjacency_spec l) as (L & ND & E).
  set (g := map order (adjacency f l)).
  assert (Hlen : length g = length l) by (unfold g; rewrite map_length; exact L).
  assert (He : forall a b, edge g a b <-> pair_holds f l a b).
  { intros a b. unfold g. rewrite edge_order. apply E. }
  assert (Hr : in_range g). { intros a b H. apply He in H. apply pair_holds_lt in H. lia. }
  assert (Hs : symmetric_graph g). { intros a b H. apply He. apply pair_holds_sym. apply He. exact H. }
  destruct (graph_bfs_components g Hr Hs) as (gs & G1 & G2 & G3 & G4 & G5 & _).
  exists (map order gs). unfold group_indexes. fold g. rewrite G1. split; [reflexivity|].
  pose proof (Permutation_concat_map gs) as HP.
  split; [eapply Permutation_NoDup; [exact HP|exact G2]|]. split; [|split].
  - intros i. rewrite <- Hlen, G3. split; intros H.
    + eapply Permutation_in; [exact HP|exact H].
    + eapply Permutation_in; [apply Permutation_sym; exact HP|exact H].
  - intros grp Hg. apply in_map_iff in Hg. destruct Hg as (x & <- & Hx).
    destruct (G5 x Hx) as (h & t & -> & _). intros E0. pose proof (order_perm (h :: t)) as Hp. rewrite E0 in Hp.
    apply Permutation_sym, Permutation_nil in Hp. discriminate.
  - intros grp i j Hg Hi. apply in_map_iff in Hg. destruct Hg as (x & <- & Hx).
    assert (Hi' : In i x) by (eapply Permutation_in; [apply Permutation_sym; apply order_perm|exact Hi]).
    unfold chained. rewrite <- (reach_iff g _ He i j). rewrite <- (G4 x i j Hx Hi').
    split; intros H.
    + eapply Permutation_in; [apply Permutation_sym; apply order_perm|exact H].
    + eapply Permutation_in; [apply order_perm|exact H].
Qed.

(** Elements: the groups together are a permutation of the collection. *)
Lemma select_perm (l : list A) is : Permutation is (seq 0 (length l)) ->
  Permutation (flat_map (item_at l) is) l.
Proof.
  intros H.
  assert (E : flat_map (item_at l) (seq 0 (length l)) = l).
  { assert (G : forall l2 pre : list A, flat_map (item_at (pre ++ l2)) (seq (length pre) (length l2)) = l2).
    { induction l2 as [|x t IH]; intros pre; [reflexivity|]. cbn [length seq flat_map].
      unfold item_at at 1. rewrite nth_error_app2 by lia. rewrite Nat.sub_diag. cbn [nth_error app]. f_equal.
      specialize (IH (pre ++ [x])). rewrite <- app_assoc in IH. cbn [app] in IH. rewrite app_length in IH. cbn in IH.
      rewrite Nat.add_1_r in IH. exact IH. }
    exact (G l []). }
  eapply Permutation_trans; [apply Permutation_flat_map; exact H|]. rewrite E. apply Permutation_refl.
Qed.

Lemma group_perm l : exists gs, group f order l = Some gs /\ Permutation (concat gs) l.
Proof.
  destruct (group_indexes_spec l) as (gi & G1 & G2 & G3 & _). unfold group. rewrite G1.
  eexists. split; [reflexivity|].
  assert (E : forall gi, concat (map (fun grp => flat_map (item_at l) grp) gi) =
         flat_map (item_at l) (concat gi)).
  { induction gi0 as [|x t IH]; cbn; [reflexivity|]. rewrite flat_map_app, IH. reflexivity. }
  rewrite E. apply select_perm. apply NoDup_Permutation; [exact G2|apply seq_NoDup|].
  intros x. rewrite <- G3, in_seq. lia.
Qed.
End Grp.
