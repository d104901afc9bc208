From Verif Require Import GeomModel GeomSpec GeomProof ShapeModel ParaModel ParaProof TableModel TableSpec.
From Coq Require Import Lia Permutation Lqa Sorted.
Open Scope Q_scope.

Lemma qmin_cases' x y : (qmin x y == x /\ x <= y) \/ (qmin x y == y /\ y <= x).
Proof. unfold qmin. destruct (qlt_spec y x); [right|left]; split; try reflexivity; lra. Qed.

(* ------------------------------------------------------------------ *)
(** * Pairwise relations *)
Lemma pairwise_perm {A} (R : A -> A -> Prop) (Sy : forall x y, R x y -> R y x) l l' : Permutation l l' -> pairwise R l -> pairwise R l'.
Proof.
  induction 1 as [|x l l' P IH|x y l|l l' l'' P1 IH1 P2 IH2]; intros D.
  - constructor.
  - inversion D as [|? ? H1 H2]; subst. constructor; [|apply IH; exact H2]. intros z Hz. apply H1. eapply Permutation_in; [apply Permutation_sym; exact P|exact Hz].
  - inversion D as [|? ? H1 H2]; subst. inversion H2 as [|? ? H3 H4]; subst. constructor.
    + intros z [<-|Hz]; [apply Sy, H1; left; reflexivity|apply H3; exact Hz].
    + constructor; [|exact H4]. intros z Hz. apply H1. right. exact Hz.
  - auto.
Qed.
Lemma pairwise_map {A B} (R : B -> B -> Prop) (f : A -> B) l : pairwise (fun a b => R (f a) (f b)) l -> pairwise R (map f l).
Proof. induction 1 as [|x l H P IH]; cbn; constructor; [|exact IH]. intros y Hy. apply in_map_iff in Hy. destruct Hy as (z & <- & Hz). apply H, Hz. Qed.
Lemma pairwise_impl {A} (R R' : A -> A -> Prop) l : (forall x y, In x l -> In y l -> R x y -> R' x y) -> pairwise R l -> pairwise R' l.
Proof.
  intros H P. induction P as [|x l Hx P IH]; constructor.
  - intros y Hy. apply H; [left; reflexivity|right; exact Hy|apply Hx, Hy].
  - apply IH. intros a b Ha Hb. apply H; right; assumption.
Qed.
Lemma pairwise_distinct l : pairwise (fun a b => ~ a == b) l -> distinct l.
Proof. induction 1 as [|x l H P IH]; constructor; [|exact IH]. intros y Hy E. apply (H y Hy). lra. Qed.

(* ------------------------------------------------------------------ *)
(** * Dictionaries *)
Lemma dset_new k v d : (forall k', In k' (keys d) -> ~ k' == k) -> dset k v d = d ++ [(k, v)].
Proof.
  induction d as [|[k' v'] t IH]; intros H; [reflexivity|]. cbn [dset]. destruct (qeq_spec k' k) as [E|E]; [exfalso; apply (H k'); [left; reflexivity|exact E]|].
  cbn [app]. f_equal. apply IH. intros z Hz. apply H. right. exact Hz.
Qed.
Lemma ddel_mid k v d1 d2 : (forall k', In k' (keys d1) -> ~ k' == k) -> ddel k (d1 ++ (k, v) :: d2) = d1 ++ d2.
Proof.
  induction d1 as [|[k' v'] t IH]; intros H; cbn [app ddel].
  - destruct (qeq_spec k k); [reflexivity|exfalso; apply n; reflexivity].
  - destruct (qeq_spec k' k) as [E|E]; [exfalso; apply (H k'); [left; reflexivity|exact E]|]. f_equal. apply IH. intros z Hz. apply H. right. exact Hz.
Qed.
Lemma dget_In k v d : dget k d = Some v -> exists k', In (k', v) d /\ k' == k.
Proof.
  induction d as [|[k' v'] t IH]; [discriminate|]. cbn [dget]. destruct (qeq_spec k' k) as [E|E].
  - intros H. injection H as ->. exists k'. split; [left; reflexivity|exact E].
  - intros H. destruct (IH H) as (z & Hz & Ez). exists z. split; [right; exact Hz|exact Ez].
Qed.
Lemma dget_some k d : In k (keys d) -> exists v, dget k d = Some v.
Proof.
  induction d as [|[k' v'] t IH]; [intros []|]. cbn [dget keys map fst]. intros H. destruct (qeq_spec k' k) as [E|E]; [eexists; reflexivity|].
  apply IH. destruct H as [<-|H]; [exfalso; apply E; reflexivity|exact H].
Qed.
Lemma dget_distinct k v d : keys_distinct d -> In (k, v) d -> dget k d = Some v.
Proof.
  unfold keys_distinct. induction d as [|[k' v'] t IH]; [intros _ []|]. cbn [keys map fst dget]. intros D H. inversion D as [|? ? D1 D2]; subst.
  destruct H as [H|H].
  - injection H as -> ->. destruct (qeq_spec k k); [reflexivity|exfalso; apply n; reflexivity].
  - destruct (qeq_spec k' k) as [E|E]; [|apply IH; assumption]. exfalso. apply (D1 k); [|exact E]. apply in_map_iff. exists (k, v). auto.
Qed.
Lemma dget_comp a b d : a == b -> dget a d = dget b d.
Proof. intros E. induction d as [|[k v] t IH]; [reflexivity|]. cbn [dget]. rewrite IH. destruct (qeq_spec k a), (qeq_spec k b); try reflexivity; exfalso; lra. Qed.
Lemma dget_dset k v d k' : dget k' (dset k v d) = if qeq k k' then Some v else dget k' d.
Proof.
  induction d as [|[q w] t IH]; cbn [dset dget].
  - destruct (qeq_spec k k'); reflexivity.
  - destruct (qeq_spec q k) as [E|E]; cbn [dget].
    + destruct (qeq_spec q k'), (qeq_spec k k'); try reflexivity; exfalso; lra.
    + rewrite IH. destruct (qeq_spec q k'), (qeq_spec k k'); try reflexivity; exfalso; lra.
Qed.
(** Setting a key adds it unless an equal one is present. *)
Lemma keys_dset k v d : keys (dset k v d) = if existsb (fun k' => qeq k' k) (keys d) then keys d else keys d ++ [k].
Proof.
  induction d as [|[q w] t IH]; [reflexivity|]. cbn [dset keys map fst existsb]. destruct (qeq q k) eqn:E; cbn [keys map fst orb]; [reflexivity|].
  fold (keys t). fold (keys (dset k v t)). rewrite IH. destruct (existsb (fun k' => qeq k' k) (keys t)); reflexivity.
Qed.
Lemma pairwise_snoc {A} (R : A -> A -> Prop) l x : pairwise R l -> (forall y, In y l -> R y x) -> pairwise R (l ++ [x]).
Proof.
  induction 1 as [|a l H P IH]; intros Hx; cbn; [constructor; [intros y []|constructor]|]. constructor.
  - intros y Hy. apply in_app_or in Hy. destruct Hy as [Hy|[<-|[]]]; [apply H; exact Hy|apply Hx; left; reflexivity].
  - apply IH. intros y Hy. apply Hx. right. exact Hy.
Qed.
Lemma dset_distinct k v d : keys_distinct d -> keys_distinct (dset k v d).
Proof.
  unfold keys_distinct. intros D. rewrite keys_dset. destruct (existsb _ _) eqn:E; [exact D|]. apply pairwise_snoc; [exact D|].
  intros y Hy Ey. assert (X : existsb (fun k' => qeq k' k) (keys d) = true); [|congruence]. apply existsb_exists. exists y. split; [exact Hy|apply qeq_iff; exact Ey].
Qed.
Lemma ddel_incl k d x : In x (keys (ddel k d)) -> In x (keys d).
Proof.
  induction d as [|[q w] t IH]; [intros []|]. cbn [ddel]. destruct (qeq q k); [intros H; right; exact H|]. cbn [keys map fst]. intros [<-|H]; [left; reflexivity|right; apply IH; exact H].
Qed.
Lemma ddel_distinct k d : keys_distinct d -> keys_distinct (ddel k d).
Proof.
  unfold keys_distinct. induction d as [|[q w] t IH]; [intros; constructor|]. cbn [ddel keys map fst]. intros D. inversion D as [|? ? D1 D2]; subst.
  destruct (qeq q k); [exact D2|]. cbn [keys map fst]. constructor; [intros y Hy; apply D1, (ddel_incl k); exact Hy|apply IH; exact D2].
Qed.
Lemma near_key_some c y d k v : near_key c y d = Some (k, v) -> exists d1 d2, d = d1 ++ (k, v) :: d2 /\ Qabs (y - k) <= c /\ forall k', In k' (keys d1) -> c < Qabs (y - k').
Proof.
  induction d as [|[q w] t IH]; [discriminate|]. cbn [near_key]. destruct (qlt_spec c (qabs (y - q))) as [L|L]; rewrite qabs_Qabs' in L; intros H.
  - destruct (IH H) as (d1 & d2 & -> & A & B). exists ((q, w) :: d1), d2. split; [reflexivity|]. split; [exact A|]. intros k' [<-|Hk]; [exact L|apply B; exact Hk].
  - injection H as -> ->. exists [], t. split; [reflexivity|]. split; [lra|intros k' []].
Qed.
Lemma near_key_none c y d : near_key c y d = None -> forall k, In k (keys d) -> c < Qabs (y - k).
Proof.
  induction d as [|[q w] t IH]; intros H k Hk; [destruct Hk|]. cbn [near_key] in H. destruct (qlt_spec c (qabs (y - q))) as [L|L]; rewrite qabs_Qabs' in L; [|discriminate].
  destruct Hk as [<-|Hk]; [exact L|apply IH; assumption].
Qed.
Lemma put_distinct h c d s : keys_distinct d -> keys_distinct (put_stroke h c d s).
Proof. intros D. unfold put_stroke. cbv zeta. destruct (near_key _ _ _) as [[k v]|]; apply dset_distinct; [apply ddel_distinct|]; exact D. Qed.
Lemma group_distinct h c l : keys_distinct (group_dir h c l).
Proof.
  unfold group_dir. assert (G : forall d, keys_distinct d -> keys_distinct (fold_left (put_stroke h c) l d)); [|apply G; constructor].
  induction l as [|s t IH]; intros d D; [exact D|]. cbn [fold_left]. apply IH, put_distinct, D.
Qed.

(* ------------------------------------------------------------------ *)
(** * Clear rows are recovered *)
Lemma near_sym c a b : near c a b -> near c b a.
Proof. unfold near. rewrite (Qabs_Qminus b a). auto. Qed.
Lemma nearb_spec c a b : nearb c a b = true <-> near c a b.
Proof. unfold nearb, near. apply Qle_bool_iff. Qed.
Lemma near_dec c a b : {near c a b} + {~ near c a b}.
Proof. destruct (nearb c a b) eqn:E; [left; apply nearb_spec; exact E|right; intros H; apply nearb_spec in H; congruence]. Qed.
Lemma near_iff c a b : near c a b <-> - c <= a - b <= c.
Proof. unfold near. apply Qabs_Qle_condition. Qed.
Section Group.
  Variables (h : bool) (c : Q).
  Hypothesis Hc : 0 <= c.
  Let nr (a b : shape) : Prop := near c (coord h a) (coord h b).
  (** One entry of the dictionary for the strokes [l] read so far. *)
  Definition entry_ok (l : list shape) (e : Q * list shape) : Prop :=
    snd e <> [] /\ (forall s, In s (snd e) -> In s l /\ snd e = filter (fun t => nearb c (coord h t) (coord h s)) l) /\
    exists a b, In a (snd e) /\ In b (snd e) /\ coord h a <= fst e <= coord h b.
  Definition far (e1 e2 : Q * list shape) : Prop := forall s t, In s (snd e1) -> In t (snd e2) -> ~ nr s t.
  Definition dict_ok (l : list shape) (d : dict) : Prop :=
    Forall (entry_ok l) d /\ pairwise far d /\ Permutation (flat_map snd d) l.
  Lemma far_sym e1 e2 : far e1 e2 -> far e2 e1.
  Proof. intros F s t Hs Ht N. apply (F t s Ht Hs). apply near_sym. exact N. Qed.
  Lemma entry_near l e : entry_ok l e -> forall s t, In s (snd e) -> In t (snd e) -> nr s t.
  Proof. intros (_ & F & _) s t Hs Ht. destruct (F t Ht) as (_ & E). rewrite E in Hs. apply filter_In in Hs. apply nearb_spec, (proj2 Hs). Qed.
  (** The key is near exactly the strokes near its members. *)
  Lemma key_near l e y : entry_ok l e -> (forall s, In s (snd e) -> near c y (coord h s)) \/ (forall s, In s (snd e) -> ~ near c y (coord h s)) ->
    (near c y (fst e) <-> forall s, In s (snd e) -> near c y (coord h s)).
  Proof.
    intros Ok D. pose proof Ok as (Ne & F & a & b & Ha & Hb & Hk). pose proof (entry_near l e Ok a b Ha Hb) as Nab. unfold nr in Nab. apply near_iff in Nab. split.
    - intros N. destruct D as [D|D]; [exact D|]. exfalso. pose proof (D a Ha) as Da. pose proof (D b Hb) as Db. rewrite near_iff in N, Da, Db. lra.
    - intros A. pose proof (A a Ha) as Da. pose proof (A b Hb) as Db. rewrite near_iff in *. lra.
  Qed.
  Lemma far_keys l e1 e2 : entry_ok l e1 -> entry_ok l e2 -> far e1 e2 -> c < Qabs (fst e1 - fst e2).
  Proof.
    intros O1 O2 F. pose proof O1 as (_ & _ & a1 & b1 & A1 & B1 & K1). pose proof O2 as (_ & _ & a2 & b2 & A2 & B2 & K2).
    pose proof (entry_near l e1 O1 a1 b1 A1 B1) as N1. pose proof (entry_near l e2 O2 a2 b2 A2 B2) as N2. unfold nr in *.
    pose proof (F a1 a2 A1 A2) as F1. pose proof (F a1 b2 A1 B2) as F2. pose proof (F b1 a2 B1 A2) as F3. pose proof (F b1 b2 B1 B2) as F4. unfold nr in *.
    rewrite near_iff in *. destruct (Qlt_le_dec c (Qabs (fst e1 - fst e2))) as [G|G]; [exact G|exfalso]. apply Qabs_Qle_condition in G. lra.
  Qed.
  Lemma filter_snoc_no (p : shape -> bool) l s : p s = false -> filter p (l ++ [s]) = filter p l.
  Proof. intros E. rewrite filter_app. cbn [filter]. rewrite E. apply app_nil_r. Qed.
  Lemma filter_ext_in' (p q : shape -> bool) l : (forall x, In x l -> p x = q x) -> filter p l = filter q l.
  Proof. apply filter_ext_in. Qed.
  Lemma put_ok l d s : clear_lines h c (l ++ [s]) -> shape_bool s = true -> dict_ok l d -> dict_ok (l ++ [s]) (put_stroke h c d s).
  Proof.
    intros Cl Bs (Fo & Pw & Pm). unfold put_stroke. cbv zeta. rewrite Bs.
    assert (Ey : round1 (s_at h s) = coord h s) by reflexivity. rewrite Ey. clear Ey. set (y := coord h s).
    rewrite Forall_forall in Fo.
    assert (Is : In s (l ++ [s])) by (apply in_or_app; right; left; reflexivity).
    assert (Il : forall t, In t l -> In t (l ++ [s])) by (intros t Ht; apply in_or_app; left; exact Ht).
    assert (Dich : forall e, In e d -> (forall t, In t (snd e) -> near c y (coord h t)) \/ (forall t, In t (snd e) -> ~ near c y (coord h t))).
    { intros e He. specialize (Fo e He). pose proof Fo as (Ne & F & _). destruct (snd e) as [|t0 ts] eqn:Ee; [congruence|].
      assert (I0 : In t0 (snd e)) by (rewrite Ee; left; reflexivity).
      destruct (near_dec c y (coord h t0)) as [N|N]; [left|right]; intros t Ht.
      - apply (Cl s t0 t); [exact Is|apply Il, (F t0); left; reflexivity|apply Il, (F t Ht)|exact N|]. apply (entry_near l e Fo); [exact I0|rewrite Ee; exact Ht].
      - intros N'. apply N. apply (Cl s t t0); [exact Is|apply Il, (F t Ht)|apply Il, (F t0); left; reflexivity|exact N'|]. apply (entry_near l e Fo); [rewrite Ee; exact Ht|exact I0]. }
    assert (Kd : keys_distinct d).
    { unfold keys_distinct. apply pairwise_map. apply (pairwise_impl far); [|exact Pw]. intros e1 e2 H1 H2 F E. pose proof (far_keys l e1 e2 (Fo e1 H1) (Fo e2 H2) F) as G.
      assert (Z : fst e1 - fst e2 == 0) by lra. rewrite Z in G. change (Qabs 0) with 0 in G. lra. }
    (* an entry whose members are not near [s] stays valid *)
    assert (Stay : forall e, In e d -> (forall t, In t (snd e) -> ~ near c y (coord h t)) -> entry_ok (l ++ [s]) e).
    { intros e He Fr. destruct (Fo e He) as (Ne & F & Hu). split; [exact Ne|]. split; [|exact Hu]. intros t Ht. destruct (F t Ht) as (A & B). split; [apply Il, A|].
      rewrite filter_snoc_no; [exact B|]. destruct (nearb c (coord h s) (coord h t)) eqn:E; [|reflexivity]. exfalso. apply nearb_spec in E. apply (Fr t Ht E). }
    destruct (near_key c y d) as [[k v]|] eqn:Nk.
    - destruct (near_key_some _ _ _ _ _ Nk) as (d1 & d2 & Ed & Nr & Fr1).
      assert (He : In (k, v) d) by (rewrite Ed; apply in_or_app; right; left; reflexivity).
      assert (All : forall t, In t v -> near c y (coord h t)) by (apply (key_near l (k, v) y (Fo _ He) (Dich _ He)); exact Nr).
      assert (Pd : Permutation d ((k, v) :: d1 ++ d2)) by (rewrite Ed; apply Permutation_sym, Permutation_middle).
      pose proof (pairwise_perm far far_sym _ _ Pd Pw) as Pw'. inversion Pw' as [|? ? Pf Pr]; subst.
      assert (Rest : forall e, In e (d1 ++ d2) -> In e (d1 ++ (k, v) :: d2)) by (intros e Hx; apply in_app_or in Hx; apply in_or_app; destruct Hx; [left; assumption|right; right; assumption]).
      destruct (Fo (k, v) He) as (Ne & F & a & b & Ha & Hb & Hk). cbn [snd fst] in *.
      assert (NotNear : forall e, In e (d1 ++ d2) -> forall t, In t (snd e) -> ~ near c y (coord h t)).
      { intros e Hx t Ht N. apply (Pf e Hx a t Ha Ht). apply (Cl a s t); [apply Il, (F a Ha)|exact Is|apply Il; apply (Fo e (Rest e Hx)); exact Ht|apply near_sym, All, Ha|exact N]. }
      assert (Kk : forall k', In k' (keys (d1 ++ d2)) -> c < Qabs (y - k') /\ c < Qabs (k - k')).
      { intros k' Hk'. apply in_map_iff in Hk'. destruct Hk' as (e & <- & Hx). split.
        - destruct (near_dec c y (fst e)) as [N|N]; [|unfold near in N; lra]. exfalso.
          pose proof (proj1 (key_near l e y (Fo e (Rest e Hx)) (or_intror (NotNear e Hx))) N) as N'. destruct (Fo e (Rest e Hx)) as (Ne' & _ & a' & _ & Ha' & _ & _). apply (NotNear e Hx a' Ha'). apply N', Ha'.
        - apply (far_keys l (k, v) e); [apply Fo; exact He|apply Fo, Rest, Hx|apply Pf, Hx]. }
      rewrite ddel_mid.
      2:{ intros k' Hk' E. unfold keys_distinct in Kd. destruct (Kk k') as (_ & G); [unfold keys; rewrite map_app; apply in_or_app; left; exact Hk'|].
          assert (Z : k - k' == 0) by lra. rewrite Z in G. change (Qabs 0) with 0 in G. lra. }
      rewrite dset_new.
      2:{ intros k' Hk' E. destruct (Kk k' Hk') as (G1 & G2). apply Qabs_Qle_condition in Nr.
          assert (M : (k + y) / 2 == (1 # 2) * (k + y)) by field. rewrite M in E.
          assert (c < Qabs (y - k') -> c < y - k' \/ y - k' < - c) as Sp by (intros G; destruct (Qlt_le_dec c (y - k')); [left; assumption|]; destruct (Qlt_le_dec (y - k') (- c)); [right; assumption|]; exfalso; assert (Qabs (y - k') <= c) by (apply Qabs_Qle_condition; lra); lra).
          destruct (Sp G1); lra. }
      set (e' := ((k + y) / 2, v ++ [s])).
      assert (P' : Permutation ((d1 ++ d2) ++ [e']) (e' :: d1 ++ d2)) by (apply Permutation_sym, Permutation_cons_append).
      split; [|split].
      + apply (Permutation_Forall (Permutation_sym P')). constructor.
        * split; [cbn; intros X; apply app_eq_nil in X; destruct X; discriminate|]. split.
          -- cbn [snd e']. intros t Ht.
             assert (In_l : In t (l ++ [s])) by (apply in_app_or in Ht; destruct Ht as [Ht|[<-|[]]]; [apply Il, (F t Ht)|exact Is]).
             split; [exact In_l|]. rewrite filter_app. cbn [filter].
             assert (Nst : nearb c (coord h s) (coord h t) = true).
             { apply nearb_spec. apply in_app_or in Ht. destruct Ht as [Ht|[<-|[]]]; [apply All, Ht|]. unfold near. setoid_replace (coord h s - coord h s) with 0 by ring. exact Hc. }
             rewrite Nst. f_equal. destruct (F a Ha) as (_ & Ea). rewrite Ea at 1. apply filter_ext_in. intros u Hu.
             apply Bool.eq_iff_eq_true. rewrite !nearb_spec.
             assert (Nta : near c (coord h t) (coord h a)).
             { apply in_app_or in Ht. destruct Ht as [Ht|[<-|[]]]; [apply (entry_near l (k, v) (Fo _ He)); assumption|apply All, Ha]. }
             split; intros N; [apply (Cl u a t)|apply (Cl u t a)]; try exact N; try (apply Il, Hu); try exact In_l; try (apply Il, (F a Ha)); [apply near_sym|]; exact Nta.
          -- cbn [snd fst e']. assert (M : (k + y) / 2 == (1 # 2) * (k + y)) by field.
             assert (Ia : In a (v ++ [s])) by (apply in_or_app; left; exact Ha). assert (Ib : In b (v ++ [s])) by (apply in_or_app; left; exact Hb). assert (Iss : In s (v ++ [s])) by (apply in_or_app; right; left; reflexivity).
             destruct (Qlt_le_dec y (coord h a)) as [L1|L1]; [exists s, b|destruct (Qlt_le_dec (coord h b) y) as [L2|L2]; [exists a, s|exists a, b]]; (split; [assumption|]; split; [assumption|]); rewrite M; unfold y in *; lra.
        * apply Forall_forall. intros e Hx. apply Stay; [apply Rest, Hx|apply NotNear, Hx].
      + apply (pairwise_perm far far_sym _ _ (Permutation_sym P')). constructor; [|exact Pr]. intros e Hx t u Ht Hu. cbn [snd e'] in Ht. apply in_app_or in Ht. destruct Ht as [Ht|[<-|[]]].
        * apply (Pf e Hx); assumption.
        * intros N. apply (NotNear e Hx u Hu N).
      + rewrite flat_map_app. cbn [flat_map snd e']. rewrite app_nil_r, app_assoc. apply Permutation_app_tail.
        rewrite flat_map_app in *. cbn [flat_map snd] in Pm. etransitivity; [|exact Pm]. rewrite <- app_assoc. apply Permutation_app_head. apply Permutation_app_comm.
    - pose proof (near_key_none _ _ _ Nk) as Fr.
      assert (NotNear : forall e, In e d -> forall t, In t (snd e) -> ~ near c y (coord h t)).
      { intros e He. destruct (Dich e He) as [D|D]; [|exact D]. exfalso. assert (N : near c y (fst e)) by (apply (key_near l e y (Fo e He) (or_introl D)); exact D).
        specialize (Fr (fst e) ltac:(apply in_map; exact He)). unfold near in N. lra. }
      rewrite dset_new.
      2:{ intros k' Hk' E. specialize (Fr k' Hk'). assert (Z : y - k' == 0) by lra. rewrite Z in Fr. change (Qabs 0) with 0 in Fr. lra. }
      assert (Self : nearb c (coord h s) (coord h s) = true) by (apply nearb_spec; unfold near; setoid_replace (coord h s - coord h s) with 0 by ring; exact Hc).
      split; [|split].
      + apply Forall_forall. intros e He. apply in_app_or in He. destruct He as [He|[<-|[]]]; [apply Stay; [exact He|apply NotNear, He]|].
        split; [discriminate|]. cbn [snd fst]. split; [|exists s, s; split; [left; reflexivity|]; split; [left; reflexivity|unfold y; lra]].
        intros t [<-|[]]. split; [exact Is|]. rewrite filter_app. cbn [filter]. rewrite Self.
        assert (Z : filter (fun t => nearb c (coord h t) (coord h s)) l = []); [|rewrite Z; reflexivity].
        assert (Ih : forall t, In t l -> nearb c (coord h t) (coord h s) = false).
        { intros t Ht. destruct (nearb c (coord h t) (coord h s)) eqn:E; [|reflexivity]. exfalso. apply nearb_spec in E.
          assert (Hf : In t (flat_map snd d)) by (eapply Permutation_in; [apply Permutation_sym; exact Pm|exact Ht]). apply in_flat_map in Hf. destruct Hf as (e & He & Hte).
          apply (NotNear e He t Hte). apply near_sym. exact E. }
        clear - Ih. induction l as [|x l IH]; [reflexivity|]. cbn [filter]. rewrite (Ih x (or_introl eq_refl)). apply IH. intros t Ht. apply Ih. right. exact Ht.
      + apply pairwise_snoc; [exact Pw|]. intros e He t u Ht Hu. cbn in Hu. destruct Hu as [<-|[]]. intros N. apply (NotNear e He t Ht). apply near_sym. exact N.
      + rewrite flat_map_app. cbn. apply Permutation_app_tail. exact Pm.
  Qed.
  Lemma group_ok l : clear_lines h c l -> (forall s, In s l -> shape_bool s = true) -> dict_ok l (group_dir h c l).
  Proof.
    intros Cl B. unfold group_dir. assert (G : forall t l0 d, l = l0 ++ t -> dict_ok l0 d -> dict_ok l (fold_left (put_stroke h c) t d)).
    - induction t as [|s t IH]; intros l0 d E D; [rewrite app_nil_r in E; subst; exact D|]. cbn [fold_left]. apply (IH (l0 ++ [s])); [rewrite <- app_assoc; exact E|].
      apply put_ok; [|apply B; rewrite E; apply in_or_app; right; left; reflexivity|exact D].
      intros a b z Ha Hb Hz. apply Cl; rewrite E; apply in_app_or in Ha, Hb, Hz; apply in_or_app; cbn in *; intuition.
    - apply (G l []); [reflexivity|]. split; [constructor|]. split; [constructor|constructor].
  Qed.
End Group.

(* ------------------------------------------------------------------ *)
(** * Outer borders *)
Lemma sort_side_In h l s : In s (sort_side h l) <-> In s l.
Proof. unfold sort_side, sort_key. apply py_sort_In. Qed.
Lemma check_outer_distinct r w h first d : keys_distinct d -> keys_distinct (check_outer r w h first d).
Proof.
  intros D. unfold check_outer. cbv zeta. destruct (dget _ d); [|exact D]. destruct (qlt _ _); apply dset_distinct, dset_distinct, D.
Qed.
Lemma list_min_spec l : l <> [] -> In (list_min l) l /\ forall y, In y l -> list_min l <= y.
Proof. exact (qminl_spec l). Qed.
Lemma list_max_spec l : l <> [] -> In (list_max l) l /\ forall y, In y l -> y <= list_max l.
Proof. exact (qmaxl_spec l). Qed.
(** The key of the side looked at. *)
Definition side_current (first : bool) (d : dict) : Q := if first then list_min (keys d) else list_max (keys d).
Lemma side_current_in first d : d <> [] -> In (side_current first d) (keys d).
Proof. intros N. assert (K : keys d <> []) by (destruct d; [congruence|discriminate]). unfold side_current. destruct first; [apply list_min_spec|apply list_max_spec]; exact K. Qed.
Lemma dummy_width h a f t : sh_width (dummy h a f t) == 0.
Proof. unfold dummy, stroke_update_bbox. destruct (qeq _ _); [reflexivity|]. destruct (qle _ _); reflexivity. Qed.
Lemma missing_dummy h a e : forall l st s, In s (missing h a st e l) -> exists f t, s = dummy h a f t.
Proof.
  induction l as [|x l IH]; intros st s H; cbn [missing] in H.
  - destruct (qlt _ _); [destruct H as [<-|[]]; eexists; eexists; reflexivity|destruct H].
  - apply in_app_or in H. destruct H as [H|H]; [|apply (IH _ _ H)]. destruct (qlt _ _); [destruct H as [<-|[]]; eexists; eexists; reflexivity|destruct H].
Qed.
(** What a side check keeps: every stroke, unless a new border takes over its key. *)
Lemma check_outer_keeps r w h first d k v : d <> [] -> dget k d = Some v ->
  (k == b_at h first r /\ w < Qabs (b_at h first r - side_current first d)) \/
  exists v', dget k (check_outer r w h first d) = Some v' /\ (forall s, In s v -> In s v') /\ (forall s, In s v' -> In s v \/ exists f t, s = dummy h (b_at h first r) f t).
Proof.
  intros N E. unfold check_outer. fold (side_current first d). set (cur := side_current first d). set (tg := b_at h first r).
  destruct (dget_some cur d (side_current_in first d N)) as (l & El). rewrite El. cbv zeta.
  destruct (qlt_spec w (qabs (tg - cur))) as [L|L]; rewrite qabs_Qabs' in L.
  - rewrite !dget_dset. destruct (qeq_spec tg k) as [G|G]; [left; split; [lra|exact L]|right]. destruct (qeq_spec cur k) as [G'|G'].
    + exists (sort_side h l). rewrite (dget_comp _ _ _ G') in El. assert (l = v) by congruence. subst l. split; [reflexivity|]. split; intros s Hs; [apply sort_side_In; exact Hs|left; apply sort_side_In in Hs; exact Hs].
    + exists v. split; [exact E|]. split; auto.
  - right. rewrite !dget_dset. destruct (qeq_spec cur k) as [G'|G'].
    + rewrite (dget_comp _ _ _ G') in El. assert (l = v) by congruence. subst l. eexists. split; [reflexivity|]. split; intros s Hs.
      * apply sort_side_In, in_or_app. left. apply sort_side_In. exact Hs.
      * apply sort_side_In, in_app_or in Hs. destruct Hs as [Hs|Hs]; [left; apply sort_side_In in Hs; exact Hs|right]. apply filter_In in Hs. apply (missing_dummy h tg _ _ _ _ (proj1 Hs)).
    + exists v. split; [exact E|]. split; auto.
Qed.
(** The new keys. *)
Lemma check_outer_keys r w h first d k : d <> [] -> In k (keys (check_outer r w h first d)) ->
  In k (keys d) \/ (k = b_at h first r /\ w < Qabs (b_at h first r - side_current first d)).
Proof.
  intros N. unfold check_outer. fold (side_current first d). set (cur := side_current first d). set (tg := b_at h first r).
  destruct (dget_some cur d (side_current_in first d N)) as (l & El). rewrite El. cbv zeta.
  assert (C : existsb (fun k' => qeq k' cur) (keys d) = true).
  { apply existsb_exists. exists cur. split; [apply side_current_in; exact N|apply qeq_iff; reflexivity]. }
  destruct (qlt_spec w (qabs (tg - cur))) as [L|L]; rewrite qabs_Qabs' in L; rewrite !keys_dset, !C.
  - destruct (existsb (fun k' => qeq k' tg) (keys d)); [intros H; left; exact H|]. intros H. apply in_app_or in H. destruct H as [H|[<-|[]]]; [left; exact H|right; split; [reflexivity|exact L]].
  - intros H. left. exact H.
Qed.
Lemma check_outer_keys_keep r w h first d k : In k (keys d) -> In k (keys (check_outer r w h first d)).
Proof.
  intros H. unfold check_outer. cbv zeta. destruct (dget _ d); [|exact H].
  assert (G : forall q v e, In k (keys e) -> In k (keys (dset q v e))) by (intros q v e He; rewrite keys_dset; destruct (existsb _ _); [exact He|apply in_or_app; left; exact He]).
  destruct (qlt _ _); apply G, G, H.
Qed.
Lemma check_outer_nonempty r w h first d : d <> [] -> check_outer r w h first d <> [].
Proof.
  intros N E. destruct d as [|[k v] t]; [congruence|]. pose proof (check_outer_keys_keep r w h first ((k, v) :: t) k (or_introl eq_refl)) as I. rewrite E in I. destruct I.
Qed.
(** Box of a dummy, decimals only. *)
Lemma dummy_bbox h a f t : decimal 10 a -> decimal 10 f -> decimal 10 t ->
  b_from h (sh_bbox (dummy h a f t)) == f /\ b_to h (sh_bbox (dummy h a f t)) == t.
Proof.
  intros Da Df Dt. unfold dummy, stroke_update_bbox. assert (Z : qeq (area (mk_side h a f t)) 0 = true).
  { apply qeq_iff. unfold area, mk_side, rwidth, rheight. destruct h; cbn [rx0 ry0 rx1 ry1]; [setoid_replace (a - a) with 0 by ring; ring|setoid_replace (a - a) with 0 by ring; ring]. }
  rewrite Z. cbn [set_line sh_bbox].
  assert (W : sh_width empty_stroke / 2 == 0) by reflexivity.
  unfold stroke_rect, mk_side, b_from, b_to, rround. destruct h; cbn [rx0 ry0 rx1 ry1]; split.
  - etransitivity; [apply (round_p_comp 10 _ f); rewrite W; ring|apply round_p_fixed; assumption].
  - etransitivity; [apply (round_p_comp 10 _ t); rewrite W; ring|apply round_p_fixed; assumption].
  - etransitivity; [apply (round_p_comp 10 _ f); rewrite W; ring|apply round_p_fixed; assumption].
  - etransitivity; [apply (round_p_comp 10 _ t); rewrite W; ring|apply round_p_fixed; assumption].
Qed.

(* ------------------------------------------------------------------ *)
(** * Coverage of an outer side *)
Lemma b_le h r : valid r -> b_from h r <= b_to h r.
Proof. intros (A & B). destruct h; assumption. Qed.
Lemma b_decimal h r : rect_decimal r -> decimal 10 (b_from h r) /\ decimal 10 (b_to h r).
Proof. intros (A & B & C & D). destruct h; cbn [b_from b_to]; auto. Qed.
Definition spans_at (h : bool) (s : shape) (x : Q) : Prop := b_from h (sh_bbox s) - 1 <= x <= b_to h (sh_bbox s) + 1.
Lemma gap_dummy_bool h a f t : decimal 10 a -> decimal 10 f -> decimal 10 t -> 1 < Qabs (f - t) -> shape_bool (dummy h a f t) = true.
Proof.
  intros Da Df Dt G. destruct (dummy_bbox h a f t Da Df Dt) as (E1 & E2). unfold shape_bool, rect_bool. apply Bool.negb_true_iff.
  destruct (qeq (rx0 (sh_bbox (dummy h a f t))) 0 && qeq (ry0 (sh_bbox (dummy h a f t))) 0 && qeq (rx1 (sh_bbox (dummy h a f t))) 0 && qeq (ry1 (sh_bbox (dummy h a f t))) 0) eqn:Z; [|reflexivity]. exfalso.
  apply andb_true_iff in Z. destruct Z as (Z & Z4). apply andb_true_iff in Z. destruct Z as (Z & Z3). apply andb_true_iff in Z. destruct Z as (Z1 & Z2).
  apply qeq_iff in Z1, Z2, Z3, Z4. assert (H : f - t == 0) by (destruct h; cbn [b_from b_to] in E1, E2; lra). rewrite H in G. change (Qabs 0) with 0 in G. lra.
Qed.
Lemma missing_cover h a e x : decimal 10 a -> decimal 10 e -> forall l prev st,
  (forall s, In s l -> valid (sh_bbox s) /\ rect_decimal (sh_bbox s)) -> decimal 10 st -> (l <> [] \/ exists s0, In s0 prev /\ b_to h (sh_bbox s0) == st /\ valid (sh_bbox s0)) ->
  st <= x <= e -> exists s, (In s prev \/ In s l \/ In s (filter shape_bool (missing h a st e l))) /\ spans_at h s x.
Proof.
  intros Da De. unfold spans_at. induction l as [|s t IH]; intros prev st V Ds Hp Hx.
  - destruct Hp as [Hp|(s0 & I0 & E0 & V0)]; [congruence|]. cbn [missing]. destruct (qlt_spec 1 (qabs (st - e))) as [L|L]; rewrite qabs_Qabs' in L.
    + exists (dummy h a st e). split; [right; right; apply filter_In; split; [left; reflexivity|apply gap_dummy_bool; assumption]|].
      destruct (dummy_bbox h a st e Da Ds De) as (E1 & E2). rewrite E1, E2. lra.
    + assert (L' : Qabs (st - e) <= 1) by lra. apply Qabs_le in L'. exists s0. split; [left; exact I0|]. pose proof (b_le h _ V0). lra.
  - destruct (V s (or_introl eq_refl)) as (Vs & Dcs). destruct (b_decimal h _ Dcs) as (Df & Dt). pose proof (b_le h _ Vs) as Le.
    destruct (Qlt_le_dec (b_to h (sh_bbox s)) x) as [G|G].
    + destruct (IH (s :: prev) (b_to h (sh_bbox s))) as (u & Hu & Su).
      * intros z Hz. apply V. right. exact Hz.
      * exact Dt.
      * right. exists s. split; [left; reflexivity|]. split; [reflexivity|exact Vs].
      * lra.
      * exists u. split; [|exact Su]. destruct Hu as [[<-|Hu]|[Hu|Hu]]; [right; left; left; reflexivity|left; exact Hu|right; left; right; exact Hu|].
        right. right. cbn [missing]. rewrite filter_app. apply in_or_app. right. exact Hu.
    + destruct (Qlt_le_dec x (b_from h (sh_bbox s))) as [G'|G']; [|exists s; split; [right; left; left; reflexivity|lra]].
      destruct (qlt_spec 1 (qabs (st - b_from h (sh_bbox s)))) as [L|L]; rewrite qabs_Qabs' in L.
      * exists (dummy h a st (b_from h (sh_bbox s))). split.
        -- right. right. cbn [missing]. rewrite filter_app. apply in_or_app. left. destruct (qlt_spec 1 (qabs (st - b_from h (sh_bbox s)))) as [L2|L2]; [|rewrite qabs_Qabs' in L2; lra].
           apply filter_In. split; [left; reflexivity|apply gap_dummy_bool; assumption].
        -- destruct (dummy_bbox h a st (b_from h (sh_bbox s)) Da Ds Df) as (E1 & E2). rewrite E1, E2. lra.
      * exists s. split; [right; left; left; reflexivity|]. assert (L' : Qabs (st - b_from h (sh_bbox s)) <= 1) by lra. apply Qabs_le in L'. lra.
Qed.
(** Entries are never empty. *)
Definition nonempty_lists (d : dict) : Prop := forall k v, In (k, v) d -> v <> [].
Lemma dset_In k v d p : In p (dset k v d) -> In p d \/ (snd p = v /\ fst p == k).
Proof.
  induction d as [|[q w] t IH]; cbn [dset].
  - intros [<-|[]]. right. split; reflexivity.
  - destruct (qeq_spec q k) as [E|E]; intros [<-|H].
    + right. split; [reflexivity|exact E].
    + left. right. exact H.
    + left. left. reflexivity.
    + destruct (IH H) as [H'|H']; [left; right; exact H'|right; exact H'].
Qed.
Lemma ddel_In k d p : In p (ddel k d) -> In p d.
Proof. induction d as [|[q w] t IH]; cbn [ddel]; [intros []|]. destruct (qeq q k); [intros H; right; exact H|]. intros [<-|H]; [left; reflexivity|right; apply IH; exact H]. Qed.
Lemma put_nonempty h c d s : nonempty_lists d -> nonempty_lists (put_stroke h c d s).
Proof.
  intros N k v H. unfold put_stroke in H. cbv zeta in H. destruct (near_key c (round1 (s_at h s)) d) as [[k0 v0]|] eqn:E.
  - apply dset_In in H. destruct H as [H|(H & _)]; [apply ddel_In in H; apply (N k v H)|]. cbn [snd] in H. subst v.
    destruct (near_key_some _ _ _ _ _ E) as (d1 & d2 & Ed & _). assert (I : In (k0, v0) d) by (rewrite Ed; apply in_or_app; right; left; reflexivity).
    intros Z. apply app_eq_nil in Z. destruct Z as (Z & _). apply (N k0 v0 I Z).
  - apply dset_In in H. destruct H as [H|(H & _)]; [apply (N k v H)|]. cbn [snd] in H. subst v. discriminate.
Qed.
Lemma group_nonempty h c l : nonempty_lists (group_dir h c l).
Proof.
  unfold group_dir. assert (G : forall d, nonempty_lists d -> nonempty_lists (fold_left (put_stroke h c) l d)); [|apply G; intros k v []].
  induction l as [|s t IH]; intros d D; [exact D|]. cbn [fold_left]. apply IH, put_nonempty, D.
Qed.
Lemma put_not_nil h c d s : put_stroke h c d s <> [].
Proof.
  unfold put_stroke. cbv zeta. assert (X : forall k v e, dset k v e <> []) by (intros k v [|[q w] t]; cbn [dset]; [discriminate|destruct (qeq q k); discriminate]).
  destruct (near_key c (round1 (s_at h s)) d) as [[k0 v0]|]; apply X.
Qed.
Lemma group_not_nil h c l : l <> [] -> group_dir h c l <> [].
Proof.
  unfold group_dir. intros N. destruct l as [|s t]; [congruence|]. cbn [fold_left].
  assert (G : forall l d, d <> [] -> fold_left (put_stroke h c) l d <> []); [|apply G, put_not_nil].
  induction l as [|u l IH]; intros d D; [exact D|]. cbn [fold_left]. apply IH, put_not_nil.
Qed.
(** Membership: a group holds strokes of the input only. *)
Definition strokes_of (d : dict) : list shape := flat_map snd d.
Lemma put_incl h c d s x : In x (strokes_of (put_stroke h c d s)) -> In x (strokes_of d) \/ x = s.
Proof.
  unfold strokes_of, put_stroke. cbv zeta. intros H. apply in_flat_map in H. destruct H as ((k & v) & H & Hx). cbn [snd] in Hx.
  destruct (near_key c (round1 (s_at h s)) d) as [[k0 v0]|] eqn:E.
  - destruct (near_key_some _ _ _ _ _ E) as (d1 & d2 & Ed & _). assert (I : In (k0, v0) d) by (rewrite Ed; apply in_or_app; right; left; reflexivity).
    apply dset_In in H. destruct H as [H|(H & _)]; cbn [snd] in *.
    + left. apply ddel_In in H. apply in_flat_map. exists (k, v). split; assumption.
    + subst v. apply in_app_or in Hx. destruct Hx as [Hx|Hx]; [left; apply in_flat_map; exists (k0, v0); split; assumption|]. destruct (shape_bool s); [destruct Hx as [<-|[]]; right; reflexivity|destruct Hx].
  - apply dset_In in H. destruct H as [H|(H & _)]; cbn [snd] in *; [left; apply in_flat_map; exists (k, v); split; assumption|]. subst v. destruct Hx as [<-|[]]. right. reflexivity.
Qed.
Lemma group_incl h c l x : In x (strokes_of (group_dir h c l)) -> In x l.
Proof.
  unfold group_dir. assert (G : forall l d, In x (strokes_of (fold_left (put_stroke h c) l d)) -> In x (strokes_of d) \/ In x l).
  - induction l0 as [|s t IH]; intros d H; [left; exact H|]. cbn [fold_left] in H. destruct (IH _ H) as [H'|H']; [|right; right; exact H'].
    destruct (put_incl _ _ _ _ _ H') as [H2| ->]; [left; exact H2|right; left; reflexivity].
  - intros H. destruct (G l [] H) as [[]|H']. exact H'.
Qed.
(** One side: a key near the target, covered from start to end. *)
Definition side_done (r : rect) (w : Q) (h first : bool) (d : dict) : Prop :=
  exists k v, dget k d = Some v /\ Qabs (b_at h first r - k) <= w /\ forall x, b_from h r <= x <= b_to h r -> exists s, In s v /\ spans_at h s x.
Lemma dummy_spans h a r x : rect_decimal r -> decimal 10 a -> b_from h r <= x <= b_to h r -> spans_at h (dummy h a (b_from h r) (b_to h r)) x.
Proof. intros Dr Da Hx. destruct (b_decimal h _ Dr) as (Df & Dt). destruct (dummy_bbox h a _ _ Da Df Dt) as (E1 & E2). unfold spans_at. rewrite E1, E2. lra. Qed.
Lemma b_at_decimal h first r : rect_decimal r -> decimal 10 (b_at h first r).
Proof. intros (A & B & C & D). destruct h, first; assumption. Qed.
Lemma check_side r w h first d : 0 <= w -> rect_decimal r -> d <> [] -> nonempty_lists d ->
  (forall v, dget (side_current first d) d = Some v -> Qabs (b_at h first r - side_current first d) <= w -> forall s, In s v -> valid (sh_bbox s) /\ rect_decimal (sh_bbox s)) -> side_done r w h first (check_outer r w h first d).
Proof.
  intros Hw Dr N Ne V. unfold side_done, check_outer. fold (side_current first d). set (cur := side_current first d). set (tg := b_at h first r).
  destruct (dget_some cur d (side_current_in first d N)) as (l & El). rewrite El. cbv zeta. pose proof (b_at_decimal h first r Dr : decimal 10 tg) as Dtg.
  destruct (b_decimal h _ Dr) as (Df & Dt). destruct (qlt_spec w (qabs (tg - cur))) as [L|L]; rewrite qabs_Qabs' in L.
  - exists tg, [dummy h tg (b_from h r) (b_to h r)]. rewrite dget_dset. split; [|split].
    + destruct (qeq_spec tg tg) as [_|X]; [reflexivity|exfalso; apply X; reflexivity].
    + setoid_replace (tg - tg) with 0 by ring. exact Hw.
    + intros x Hx. eexists. split; [left; reflexivity|]. apply dummy_spans; assumption.
  - eexists cur, _. rewrite dget_dset. split; [|split].
    + destruct (qeq_spec cur cur) as [_|X]; [reflexivity|exfalso; apply X; reflexivity].
    + lra.
    + intros x Hx. destruct (dget_In _ _ _ El) as (k & Ik & _).
      destruct (missing_cover h tg (b_to h r) x Dtg Dt (sort_side h l) [] (b_from h r)) as (s & Hs & Sp).
      * intros s Hs. apply (V l El); [fold cur; fold tg; lra|]. apply sort_side_In in Hs. exact Hs.
      * exact Df.
      * left. intros Z. apply (Ne k l Ik). destruct l as [|s t]; [reflexivity|]. assert (In s (sort_side h (s :: t))) as I by (apply sort_side_In; left; reflexivity). rewrite Z in I. destruct I.
      * exact Hx.
      * exists s. split; [|exact Sp]. apply sort_side_In, in_or_app. destruct Hs as [[]|Hs]. exact Hs.
Qed.
(** The opposite side's check keeps a covered side. *)
Lemma check_side_keep r w h first first' d : 0 <= w -> rect_decimal r -> d <> [] -> side_done r w h first d -> side_done r w h first (check_outer r w h first' d).
Proof.
  intros Hw Dr N (k & v & E & Nk & Cv).
  destruct (check_outer_keeps r w h first' d k v N E) as [(Ek & L)|(v' & E' & K & _)].
  - exists (b_at h first' r), [dummy h (b_at h first' r) (b_from h r) (b_to h r)]. split; [|split].
    + unfold check_outer. fold (side_current first' d). destruct (dget_some (side_current first' d) d (side_current_in first' d N)) as (l & El). rewrite El. cbv zeta.
      destruct (qlt_spec w (qabs (b_at h first' r - side_current first' d))) as [L2|L2]; [|rewrite qabs_Qabs' in L2; lra]. rewrite dget_dset.
      destruct (qeq_spec (b_at h first' r) (b_at h first' r)) as [_|X]; [reflexivity|exfalso; apply X; reflexivity].
    + assert (Z : b_at h first r - b_at h first' r == b_at h first r - k) by lra. rewrite Z. exact Nk.
    + intros x Hx. eexists. split; [left; reflexivity|]. apply dummy_spans; [exact Dr|apply b_at_decimal; exact Dr|exact Hx].
  - exists k, v'. split; [exact E'|]. split; [exact Nk|]. intros x Hx. destruct (Cv x Hx) as (s & Is & Ss). exists s. split; [apply K, Is|exact Ss].
Qed.
Lemma check_nonempty r w h first d : d <> [] -> nonempty_lists d -> nonempty_lists (check_outer r w h first d).
Proof.
  intros N Ne k v H. unfold check_outer in H. fold (side_current first d) in H. destruct (dget_some (side_current first d) d (side_current_in first d N)) as (l & El). rewrite El in H. cbv zeta in H.
  destruct (dget_In _ _ _ El) as (k0 & Ik & _). pose proof (Ne _ _ Ik) as Nl.
  assert (Sl : forall x, sort_side h (l ++ x) <> []).
  { intros x Z. destruct l as [|s t]; [congruence|]. assert (I : In s (sort_side h ((s :: t) ++ x))) by (apply sort_side_In; left; reflexivity). rewrite Z in I. destruct I. }
  assert (Sl' : sort_side h l <> []) by (rewrite <- (app_nil_r l); apply Sl).
  destruct (qlt _ _).
  - apply dset_In in H. destruct H as [H|(H & _)]; [|cbn [snd] in H; subst v; discriminate]. apply dset_In in H. destruct H as [H|(H & _)]; [apply (Ne k v H)|cbn [snd] in H; subst v; exact Sl'].
  - apply dset_In in H. destruct H as [H|(H & _)].
    + apply dset_In in H. destruct H as [H|(H & _)]; [apply (Ne k v H)|cbn [snd] in H; subst v; exact Sl'].
    + cbn [snd] in H. subst v. intros Z. destruct (sort_side h l) as [|s t] eqn:E; [congruence|].
      assert (I : In s (sort_side h ((s :: t) ++ filter shape_bool (missing h (b_at h first r) (b_from h r) (b_to h r) (s :: t))))) by (apply sort_side_In; left; reflexivity). rewrite Z in I. destruct I.
Qed.
(** Distinct keys: the value under a key is unique, extremes differ. *)
Lemma min_max_eq d : keys_distinct d -> d <> [] -> list_min (keys d) == list_max (keys d) -> length d = 1%nat.
Proof.
  intros D N E. destruct d as [|a [|b t]]; [congruence|reflexivity|exfalso].
  assert (K : keys (a :: b :: t) <> []) by discriminate. destruct (list_min_spec _ K) as (_ & Mi). destruct (list_max_spec _ K) as (_ & Ma).
  unfold keys_distinct in D. cbn [keys map] in D. inversion D as [|? ? D1 _]; subst. specialize (D1 (fst b) (or_introl eq_refl)). fold (keys t) in *.
  pose proof (Mi (fst a) (or_introl eq_refl)). pose proof (Ma (fst a) (or_introl eq_refl)). pose proof (Mi (fst b) (or_intror (or_introl eq_refl))). pose proof (Ma (fst b) (or_intror (or_introl eq_refl))).
  cbn [keys map] in *. lra.
Qed.
Lemma keys_length d : length (keys d) = length d. Proof. unfold keys. apply map_length. Qed.
Lemma check_outer_length r w h first d : d <> [] -> Qabs (b_at h first r - side_current first d) <= w -> length (check_outer r w h first d) = length d.
Proof.
  intros N L. unfold check_outer. fold (side_current first d). destruct (dget_some _ d (side_current_in first d N)) as (l & El). rewrite El. cbv zeta.
  destruct (qlt_spec w (qabs (b_at h first r - side_current first d))) as [L2|L2]; [rewrite qabs_Qabs' in L2; lra|].
  assert (C : existsb (fun k' => qeq k' (side_current first d)) (keys d) = true) by (apply existsb_exists; exists (side_current first d); split; [apply side_current_in; exact N|apply qeq_iff; reflexivity]).
  rewrite <- !keys_length, !keys_dset, !C. reflexivity.
Qed.
Definition good_strokes (d : dict) : Prop := forall s, In s (strokes_of d) -> valid (sh_bbox s) /\ rect_decimal (sh_bbox s).
Lemma dget_strokes k v d : dget k d = Some v -> forall s, In s v -> In s (strokes_of d).
Proof. intros E s Hs. destruct (dget_In _ _ _ E) as (k' & I & _). unfold strokes_of. apply in_flat_map. exists (k', v). split; assumption. Qed.
(** Both sides, one after the other. *)
Lemma check_both r w h d : 0 <= w -> rect_decimal r -> valid r -> d <> [] -> nonempty_lists d -> keys_distinct d -> good_strokes d ->
  let d2 := check_outer r w h false (check_outer r w h true d) in
  (2 <= length d2)%nat -> side_done r w h true d2 /\ side_done r w h false d2.
Proof.
  intros Hw Dr Vr N Ne Kd Gs. cbv zeta. intros L2. set (d1 := check_outer r w h true d) in *.
  assert (N1 : d1 <> []) by (apply check_outer_nonempty; exact N). assert (Ne1 : nonempty_lists d1) by (apply check_nonempty; assumption).
  assert (S1 : side_done r w h true d1) by (apply check_side; try assumption; intros v E _ s Hs; apply Gs, (dget_strokes _ _ _ E), Hs).
  split; [apply check_side_keep; assumption|]. apply check_side; try assumption. intros v E L s Hs. rewrite check_outer_length in L2 by assumption.
  assert (Kd1 : keys_distinct d1) by (apply check_outer_distinct; exact Kd).
  set (cur2 := side_current false d1) in *. unfold d1, check_outer in E. fold (side_current true d) in E.
  destruct (dget_some _ d (side_current_in true d N)) as (l & El). rewrite El in E. cbv zeta in E.
  destruct (qlt_spec w (qabs (b_at h true r - side_current true d))) as [G|G]; rewrite qabs_Qabs' in G.
  - rewrite !dget_dset in E. destruct (qeq_spec (b_at h true r) cur2) as [E1|E1].
    + injection E as <-. destruct Hs as [<-|[]]. unfold dummy, stroke_update_bbox.
      assert (Z : qeq (area (mk_side h (b_at h true r) (b_from h r) (b_to h r))) 0 = true).
      { apply qeq_iff. unfold area, mk_side, rwidth, rheight. destruct h; cbn [rx0 ry0 rx1 ry1]; ring. }
      rewrite Z. cbn [set_line sh_bbox]. split; [|apply rround_decimal]. apply rround_valid. assert (W : sh_width empty_stroke / 2 == 0) by reflexivity.
      unfold stroke_rect, mk_side. pose proof (b_le h r Vr) as Le. destruct h; split; cbn [rx0 ry0 rx1 ry1] in *; rewrite W; lra.
    + destruct (qeq_spec (side_current true d) cur2) as [E2|E2].
      * injection E as <-. apply sort_side_In in Hs. apply Gs, (dget_strokes _ _ _ El), Hs.
      * apply Gs, (dget_strokes _ _ _ E), Hs.
  - rewrite !dget_dset in E. destruct (qeq_spec (side_current true d) cur2) as [E2|E2]; [exfalso|apply Gs, (dget_strokes _ _ _ E), Hs].
    assert (L1 : length d1 = length d) by (apply check_outer_length; [exact N|lra]). rewrite L1 in L2.
    assert (Km : list_max (keys d1) == list_max (keys d)).
    { assert (K1 : keys d1 <> []) by (destruct d1; [congruence|discriminate]). assert (K0 : keys d <> []) by (destruct d; [congruence|discriminate]).
      destruct (list_max_spec _ K1) as (I1 & M1). destruct (list_max_spec _ K0) as (I0 & M0).
      destruct (check_outer_keys r w h true d _ N I1) as [I|(_ & X)]; [|lra]. pose proof (M0 _ I). pose proof (M1 _ (check_outer_keys_keep r w h true d _ I0)). lra. }
    unfold cur2, side_current in E2. rewrite Km in E2. pose proof (min_max_eq d Kd N E2). lia.
Qed.

(* ------------------------------------------------------------------ *)
(** * The grid *)
Lemma lookup_all_some d : forall ks, (forall k, In k ks -> In k (keys d)) -> exists r, lookup_all ks d = Some r.
Proof.
  induction ks as [|k t IH]; intros H; [eexists; reflexivity|]. cbn [lookup_all]. destruct (dget_some k d (H k (or_introl eq_refl))) as (v & Ev). rewrite Ev.
  destruct (IH (fun k' Hk => H k' (or_intror Hk))) as (r & Er). rewrite Er. eexists. reflexivity.
Qed.
Lemma lookup_all_nth d : forall ks r, lookup_all ks d = Some r -> length r = length ks /\ forall j k, nth_error ks j = Some k -> exists v, nth_error r j = Some v /\ dget k d = Some v.
Proof.
  induction ks as [|k t IH]; intros r E; cbn [lookup_all] in E.
  - injection E as <-. split; [reflexivity|]. intros [|j] k H; discriminate.
  - destruct (dget k d) as [v|] eqn:Ek; [|discriminate]. destruct (lookup_all t d) as [r'|] eqn:Er; [|discriminate]. injection E as <-. destruct (IH r' eq_refl) as (L & A).
    split; [cbn; rewrite L; reflexivity|]. intros [|j] q H; cbn in *; [injection H as <-; eauto|apply A; exact H].
Qed.
Lemma sorted_keys_In d x : In x (sorted_keys d) <-> In x (keys d).
Proof. unfold sorted_keys, sort_key. apply py_sort_In. Qed.
Lemma sorted_keys_length d : length (sorted_keys d) = length d.
Proof. unfold sorted_keys, sort_key. rewrite py_sort_length. apply keys_length. Qed.
Lemma sorted_keys_sorted d : keys_distinct d -> StronglySorted Qlt (sorted_keys d).
Proof. intros D. unfold sorted_keys. apply stops_sorted, pairwise_distinct, D. Qed.
Lemma intervals_length l : length (intervals l) = (length l - 1)%nat.
Proof. induction l as [|a [|b t] IH]; [reflexivity|reflexivity|]. cbn [intervals length] in *. rewrite IH. lia. Qed.
Lemma intervals_nth : forall l i p, nth_error (intervals l) i = Some p <-> nth_error l i = Some (fst p) /\ nth_error l (S i) = Some (snd p).
Proof.
  induction l as [|a [|b t] IH]; intros i [p q]; cbn [intervals fst snd].
  - destruct i; cbn; split; [discriminate|intros (X & _); discriminate|discriminate|intros (X & _); discriminate].
  - destruct i as [|[|i]]; cbn; split; try discriminate; intros (X & Y); discriminate.
  - destruct i as [|i].
    + cbn. split; [intros H; injection H as <- <-; auto|intros (H1 & H2); injection H1 as <-; injection H2 as <-; reflexivity].
    + specialize (IH i (p, q)). cbn [fst snd] in IH. cbn [nth_error] in *. exact IH.
Qed.
Lemma all_some_map {A B} (f : A -> option B) l r : all_some (map f l) = Some r <-> length r = length l /\ forall i x, nth_error l i = Some x -> exists y, nth_error r i = Some y /\ f x = Some y.
Proof.
  revert r. induction l as [|x l IH]; intros r; cbn [map all_some].
  - split; [intros H; injection H as <-; split; [reflexivity|intros [|i] y H; discriminate]|]. intros (L & _). destruct r; [reflexivity|discriminate].
  - destruct (f x) as [y|] eqn:E.
    + destruct (all_some (map f l)) as [r'|] eqn:Er.
      * split.
        -- intros H. injection H as <-. destruct (proj1 (IH r') eq_refl) as (L & A0). split; [cbn; rewrite L; reflexivity|]. intros [|i] z H; cbn in *; [injection H as <-; eauto|apply A0; exact H].
        -- intros (L & A0). destruct r as [|y' r0]; [discriminate|]. destruct (A0 0%nat x eq_refl) as (y2 & H1 & H2). cbn in H1. injection H1 as ->.
           assert (Some r' = Some r0) as X.
           { apply IH. split; [injection L; auto|]. intros i z H. apply (A0 (S i) z H). }
           congruence.
      * split; [discriminate|]. intros (L & A0). destruct r as [|y' r0]; [discriminate|].
        assert (None = Some r0) as X; [|discriminate]. apply IH. split; [injection L; auto|]. intros i z H. apply (A0 (S i) z H).
    + split; [discriminate|]. intros (L & A0). destruct (A0 0%nat x eq_refl) as (y & _ & H). congruence.
Qed.
Lemma all_some_total {A B} (f : A -> option B) l : (forall x, In x l -> exists y, f x = Some y) -> exists r, all_some (map f l) = Some r.
Proof.
  induction l as [|x l IH]; intros H; [eexists; reflexivity|]. cbn [map all_some]. destruct (H x (or_introl eq_refl)) as (y & Ey). rewrite Ey.
  destruct (IH (fun z Hz => H z (or_intror Hz))) as (r & Er). rewrite Er. eexists. reflexivity.
Qed.
(** Merge counts. *)
Lemma zeros_le l : (zeros l <= length l)%nat.
Proof. induction l as [|[|] t IH]; cbn; lia. Qed.
Lemma count_le l : (count_merged l <= length l)%nat.
Proof. destruct l as [|[|] t]; cbn; [lia| |lia]. pose proof (zeros_le t). lia. Qed.
Lemma zeros_spec : forall l k, (k < zeros l)%nat -> nth_error l k = Some false.
Proof. induction l as [|[|] t IH]; intros k H; cbn in H; try lia. destruct k; [reflexivity|]. cbn. apply IH. lia. Qed.
Lemma zeros_stop : forall l, (zeros l < length l)%nat -> nth_error l (zeros l) = Some true.
Proof. induction l as [|[|] t IH]; intros H; cbn in *; try lia; [reflexivity|]. apply IH. lia. Qed.
Lemma nth_error_skipn {A} : forall j (l : list A) k, nth_error (skipn j l) k = nth_error l (j + k).
Proof. induction j as [|j IH]; intros l k; [reflexivity|]. destruct l; [destruct k; reflexivity|]. cbn. apply IH. Qed.
Lemma count_run l j : (j < length l)%nat -> run_length (fun k => nth_error l k = Some true) (length l) j (count_merged (skipn j l)).
Proof.
  intros H. assert (E : nth_error (skipn j l) 0 = nth_error l j) by (rewrite nth_error_skipn; f_equal; lia).
  assert (L : length (skipn j l) = (length l - j)%nat) by apply skipn_length.
  destruct (skipn j l) as [|b t] eqn:Es; [cbn in L; lia|]. cbn in E. destruct b.
  - right. cbn [count_merged]. cbn [length] in L. pose proof (zeros_le t) as Z. split; [symmetry; exact E|]. split; [lia|]. split; [lia|].
    assert (N : forall k, nth_error t k = nth_error l (j + S k)) by (intros k; rewrite <- nth_error_skipn, Es; reflexivity).
    split.
    + intros k Hk X. replace k with (j + S (k - j - 1))%nat in X by lia. rewrite <- N in X. rewrite zeros_spec in X by lia. discriminate.
    + intros Hk. rewrite <- N. apply zeros_stop. lia.
  - left. cbn [count_merged]. split; [|reflexivity]. rewrite <- E. discriminate.
Qed.
Lemma check_merged_length h ref b : length (check_merged h ref b) = (length b - 1)%nat.
Proof. unfold check_merged. rewrite map_length. induction b as [|a [|c t] IH]; [reflexivity|reflexivity|]. cbn [removelast length] in *. rewrite IH. lia. Qed.
Lemma removelast_nth {A} : forall (l : list A) j, (S j < length l)%nat -> nth_error (removelast l) j = nth_error l j.
Proof. induction l as [|a [|c t] IH]; intros j H; cbn [length] in H; try lia. destruct j; [reflexivity|]. cbn [removelast nth_error]. apply IH. cbn [length]. lia. Qed.
(** One row of the grid. *)
Lemma row_status_nth xs ys vb i : (S i < length ys)%nat -> exists y0 y1, nth_error ys i = Some y0 /\ nth_error ys (S i) = Some y1 /\ nth i (row_status xs ys vb) [] = check_merged false (middle (y0, y1)) vb.
Proof.
  intros H. destruct (nth_error (intervals ys) i) as [[y0 y1]|] eqn:E.
  - exists y0, y1. pose proof (proj1 (intervals_nth _ _ _) E) as (A & B). split; [exact A|]. split; [exact B|]. unfold row_status.
    apply nth_error_nth. rewrite nth_error_map, E. reflexivity.
  - apply nth_error_None in E. rewrite intervals_length in E. lia.
Qed.
Lemma col_status_nth xs ys hb j : (S j < length xs)%nat -> exists x0 x1, nth_error xs j = Some x0 /\ nth_error xs (S j) = Some x1 /\ nth j (col_status xs ys hb) [] = check_merged true (middle (x0, x1)) hb.
Proof.
  intros H. destruct (nth_error (intervals xs) j) as [[y0 y1]|] eqn:E.
  - exists y0, y1. pose proof (proj1 (intervals_nth _ _ _) E) as (A & B). split; [exact A|]. split; [exact B|]. unfold col_status.
    apply nth_error_nth. rewrite nth_error_map, E. reflexivity.
  - apply nth_error_None in E. rewrite intervals_length in E. lia.
Qed.
(** What parsing produces. *)
Definition shell (c : cell) : nat * nat * rect := (ce_rows c, ce_cols c, ce_bbox c).
Lemma finish_shell hd vd fills c c' : finish_cell hd vd fills c = Some c' -> shell c' = shell c /\ is_merged c' = is_merged c.
Proof.
  unfold finish_cell. destruct (is_merged c) eqn:M; [intros H; injection H as <-; auto|]. destruct (parse_borders hd vd (ce_bbox c)) as [bs|]; [|discriminate]. intros H. injection H as <-. split; [reflexivity|exact M].
Qed.
Lemma in_seq_nth n k x : nth_error (seq 0 n) k = Some x -> x = k /\ (k < n)%nat.
Proof. intros H. assert (L : (k < length (seq 0 n))%nat) by (apply nth_error_Some; congruence). rewrite seq_length in L. pose proof (nth_error_nth _ _ 0%nat H) as E. rewrite seq_nth in E by exact L. split; [lia|exact L]. Qed.
Lemma grid_nth xs ys R C i r : nth_error (grid_cells xs ys R C) i = Some r -> (i < length ys - 1)%nat /\ r = map (merge_cell xs ys R C i) (seq 0 (length xs - 1)).
Proof.
  unfold grid_cells. rewrite nth_error_map. destruct (nth_error (seq 0 (length ys - 1)) i) as [k|] eqn:E; [|discriminate]. destruct (in_seq_nth _ _ _ E) as (-> & L). cbn. intros H. injection H as <-. auto.
Qed.
Lemma seq_nth_error n k : (k < n)%nat -> nth_error (seq 0 n) k = Some k.
Proof. intros H. rewrite (nth_error_nth' (seq 0 n) 0%nat) by (rewrite seq_length; exact H). rewrite seq_nth by exact H. reflexivity. Qed.
Lemma parse_inv c w strokes fills st : parse_structure c w strokes fills = Parsed st ->
  exists vb hb, group_h_v c w strokes = Some (st_h st, st_v st) /\ st_xs st = sorted_keys (st_v st) /\ st_ys st = sorted_keys (st_h st) /\
    (2 <= length (st_xs st))%nat /\ (2 <= length (st_ys st))%nat /\ lookup_all (st_xs st) (st_v st) = Some vb /\ lookup_all (st_ys st) (st_h st) = Some hb /\
    length (st_cells st) = nrows st /\ (forall r, In r (st_cells st) -> length r = ncols st) /\
    (forall i j, (i < nrows st)%nat -> (j < ncols st)%nat -> exists ce, cell_at st i j ce /\
      finish_cell (st_h st) (st_v st) fills (merge_cell (st_xs st) (st_ys st) (row_status (st_xs st) (st_ys st) vb) (col_status (st_xs st) (st_ys st) hb) i j) = Some ce).
Proof.
  unfold parse_structure. destruct (group_h_v c w strokes) as [[hd vd]|] eqn:G; [|discriminate]. cbv zeta.
  destruct (sorted_keys hd) as [|y0 [|y1 ys]] eqn:Ey; [discriminate|discriminate|]. destruct (sorted_keys vd) as [|x0 [|x1 xs]] eqn:Ex; [discriminate|discriminate|].
  destruct (lookup_all (x0 :: x1 :: xs) vd) as [vb|] eqn:Lv; [|discriminate]. destruct (lookup_all (y0 :: y1 :: ys) hd) as [hb|] eqn:Lh; [|discriminate].
  set (X := x0 :: x1 :: xs) in *. set (Y := y0 :: y1 :: ys) in *.
  set (cells := grid_cells X Y (row_status X Y vb) (col_status X Y hb)).
  destruct (all_some (map (fun r => all_some (map (finish_cell hd vd fills) r)) cells)) as [cs|] eqn:Ec; [|discriminate].
  intros H. injection H as <-. exists vb, hb. cbn [st_h st_v st_xs st_ys st_cells nrows ncols]. unfold nrows, ncols. cbn [st_h st_v st_xs st_ys st_cells].
  pose proof (proj1 (all_some_map _ _ _) Ec) as (Lc & Nc).
  assert (Lg : length cells = (length Y - 1)%nat) by (unfold cells, grid_cells; rewrite map_length, seq_length; reflexivity).
  assert (Rows : forall i r', nth_error cs i = Some r' -> exists r, nth_error cells i = Some r /\ all_some (map (finish_cell hd vd fills) r) = Some r').
  { intros i r' Hr. destruct (nth_error cells i) as [r|] eqn:Er.
    - destruct (Nc i r Er) as (y & H1 & H2). exists r. split; [reflexivity|]. congruence.
    - apply nth_error_None in Er. assert (i < length cs)%nat by (apply nth_error_Some; congruence). lia. }
  repeat (split; [first [reflexivity | assumption | symmetry; assumption | (subst X Y; cbn; lia)]|]).
  split; [lia|]. split.
  - intros r' Hr. apply In_nth_error in Hr. destruct Hr as (i & Hi). destruct (Rows i r' Hi) as (r & Hr & Ha). destruct (grid_nth _ _ _ _ _ _ Hr) as (_ & ->).
    pose proof (proj1 (all_some_map _ _ _) Ha) as (La & _). rewrite La, map_length, seq_length. reflexivity.
  - intros i j Hi Hj. assert (Hg : nth_error cells i = Some (map (merge_cell X Y (row_status X Y vb) (col_status X Y hb) i) (seq 0 (length X - 1)))).
    { unfold cells, grid_cells. rewrite nth_error_map, seq_nth_error by exact Hi. reflexivity. }
    destruct (Nc i _ Hg) as (r' & Hr' & Ha). pose proof (proj1 (all_some_map _ _ _) Ha) as (La & Na).
    assert (Hm : nth_error (map (merge_cell X Y (row_status X Y vb) (col_status X Y hb) i) (seq 0 (length X - 1))) j = Some (merge_cell X Y (row_status X Y vb) (col_status X Y hb) i j)).
    { rewrite nth_error_map, seq_nth_error by exact Hj. reflexivity. }
    destruct (Na j _ Hm) as (ce & Hce & Hf). exists ce. split; [|exact Hf]. exists r'. split; assumption.
Qed.
Lemma cell_at_fun st i j c c' : cell_at st i j c -> cell_at st i j c' -> c = c'.
Proof. intros (r & A & B) (r' & A' & B'). congruence. Qed.
(** The cell found at (i, j). *)
Lemma cell_shell c w strokes fills st vb hb : parse_structure c w strokes fills = Parsed st -> lookup_all (st_xs st) (st_v st) = Some vb -> lookup_all (st_ys st) (st_h st) = Some hb ->
  forall i j ce, cell_at st i j ce -> (i < nrows st)%nat /\ (j < ncols st)%nat /\
    shell ce = shell (merge_cell (st_xs st) (st_ys st) (row_status (st_xs st) (st_ys st) vb) (col_status (st_xs st) (st_ys st) hb) i j).
Proof.
  intros P Ev Eh i j ce Hc. destruct (parse_inv _ _ _ _ _ P) as (vb' & hb' & _ & _ & _ & _ & _ & Ev' & Eh' & Lc & Lr & A). rewrite Ev in Ev'. rewrite Eh in Eh'. injection Ev' as <-. injection Eh' as <-.
  pose proof Hc as (r & H1 & H2). assert (Hi : (i < nrows st)%nat) by (rewrite <- Lc; apply nth_error_Some; congruence).
  assert (Hj : (j < ncols st)%nat) by (rewrite <- (Lr r (nth_error_In _ _ H1)); apply nth_error_Some; congruence).
  split; [exact Hi|]. split; [exact Hj|]. destruct (A i j Hi Hj) as (ce' & Hc' & Hf). rewrite (cell_at_fun _ _ _ _ _ Hc Hc'). apply (finish_shell _ _ _ _ _ Hf).
Qed.
Lemma merge_in_range xs ys vb hb i j : length vb = length xs -> length hb = length ys -> (i < length ys - 1)%nat -> (j < length xs - 1)%nat ->
  let c := merge_cell xs ys (row_status xs ys vb) (col_status xs ys hb) i j in (j + ce_cols c <= length xs - 1)%nat /\ (i + ce_rows c <= length ys - 1)%nat.
Proof.
  intros Lv Lh Hi Hj. cbv zeta. unfold merge_cell. cbn [ce_cols ce_rows]. unfold status_at.
  destruct (row_status_nth xs ys vb i) as (y0 & y1 & _ & _ & ->); [lia|]. destruct (col_status_nth xs ys hb j) as (x0 & x1 & _ & _ & ->); [lia|].
  pose proof (count_le (skipn j (check_merged false (middle (y0, y1)) vb))) as A. pose proof (count_le (skipn i (check_merged true (middle (x0, x1)) hb))) as B.
  rewrite skipn_length, check_merged_length in A, B. lia.
Qed.
Lemma parse_borders_some xs ys hd vd b : (forall x, In x xs -> In x (keys vd)) -> (forall y, In y ys -> In y (keys hd)) ->
  In (rx0 b) xs -> In (rx1 b) xs -> In (ry0 b) ys -> In (ry1 b) ys -> exists bs, parse_borders hd vd b = Some bs.
Proof.
  intros Hx Hy A B C D. unfold parse_borders. destruct (dget_some _ _ (Hy _ C)) as (v1 & ->). destruct (dget_some _ _ (Hy _ D)) as (v2 & ->).
  destruct (dget_some _ _ (Hx _ A)) as (v3 & ->). destruct (dget_some _ _ (Hx _ B)) as (v4 & ->). eexists. reflexivity.
Qed.
(** Parsing fails exactly when there are at least two rows of borders and one column. *)
Lemma parse_total c w strokes fills : match parse_structure c w strokes fills with
  | NoTable => match group_h_v c w strokes with None => True | Some (hd, _) => (length hd <= 1)%nat end
  | Failed => exists hd vd, group_h_v c w strokes = Some (hd, vd) /\ (2 <= length hd)%nat /\ (length vd <= 1)%nat
  | Parsed st => True
  end.
Proof.
  unfold parse_structure. destruct (group_h_v c w strokes) as [[hd vd]|] eqn:G; [|exact I]. cbv zeta.
  pose proof (sorted_keys_length hd) as Lh. pose proof (sorted_keys_length vd) as Lv.
  pose proof (sorted_keys_In vd) as Iv. pose proof (sorted_keys_In hd) as Ih.
  destruct (sorted_keys hd) as [|y0 [|y1 ys]]; [cbn in Lh; lia|cbn in Lh; lia|]. destruct (sorted_keys vd) as [|x0 [|x1 xs]].
  1,2: exists hd, vd; cbn in Lh, Lv; split; [reflexivity|lia].
  set (X := x0 :: x1 :: xs) in *. set (Y := y0 :: y1 :: ys) in *.
  destruct (lookup_all_some vd X) as (vb & Ev); [intros k Hk; apply Iv; exact Hk|]. destruct (lookup_all_some hd Y) as (hb & Eh); [intros k Hk; apply Ih; exact Hk|].
  rewrite Ev, Eh. destruct (lookup_all_nth _ _ _ Ev) as (Lvb & _). destruct (lookup_all_nth _ _ _ Eh) as (Lhb & _).
  match goal with |- context [all_some ?l] => destruct (all_some l) eqn:E end; [exact I|exfalso].
  match type of E with all_some ?l = None => assert (exists r, all_some l = Some r) as (r & Er) end; [|congruence].
  apply all_some_total. intros r Hr. apply all_some_total. intros ce Hce.
  apply In_nth_error in Hr. destruct Hr as (i & Hr). destruct (grid_nth _ _ _ _ _ _ Hr) as (Hi & ->). apply in_map_iff in Hce. destruct Hce as (j & <- & Hj). apply in_seq in Hj.
  destruct (merge_in_range X Y vb hb i j Lvb Lhb Hi ltac:(lia)) as (B1 & B2).
  unfold finish_cell. destruct (is_merged _); [eexists; reflexivity|].
  destruct (parse_borders_some X Y hd vd (ce_bbox (merge_cell X Y (row_status X Y vb) (col_status X Y hb) i j))) as (bs & ->); [intros x Hx; apply Iv; exact Hx|intros y Hy; apply Ih; exact Hy| | | | |eexists; reflexivity];
    unfold merge_cell in *; cbn [ce_bbox ce_cols ce_rows rx0 rx1 ry0 ry1] in *; apply nth_In; lia.
Qed.
(** Presence of a border. *)
Lemma crossed_sound h ref l : crossed h ref l = true -> exists s, In s l /\ s_from h s < ref /\ ref < s_to h s.
Proof.
  induction l as [|s t IH]; [discriminate|]. cbn [crossed]. destruct (qlt_spec (s_from h s) ref) as [A|A]; destruct (qlt_spec ref (s_to h s)) as [B|B]; cbn [andb].
  1: intros _; exists s; split; [left; reflexivity|split; assumption].
  all: destruct (qlt (s_to h s) ref); [intros H; destruct (IH H) as (u & Hu & Hr); exists u; split; [right; exact Hu|exact Hr]|].
  all: destruct (qlt ref (s_from h s)); [discriminate|]; intros H; destruct (IH H) as (u & Hu & Hr); exists u; split; [right; exact Hu|exact Hr].
Qed.
Lemma crossed_complete h ref l : StronglySorted (fun a b => s_from h a <= s_from h b) l -> (exists s, In s l /\ s_from h s < ref /\ ref < s_to h s) -> crossed h ref l = true.
Proof.
  induction 1 as [|s t St IH Fs]; intros (u & Hu & A & B); [destruct Hu|]. cbn [crossed].
  destruct (qlt_spec (s_from h s) ref) as [C|C]; destruct (qlt_spec ref (s_to h s)) as [D|D]; cbn [andb]; [reflexivity| | |].
  - assert (E : In u t) by (destruct Hu as [<-|Hu]; [exfalso; apply D; exact B|exact Hu]). destruct (qlt (s_to h s) ref); [apply IH; eauto|]. destruct (qlt_spec ref (s_from h s)); [exfalso; lra|apply IH; eauto].
  - exfalso. destruct Hu as [<-|Hu]; [apply C; exact A|]. rewrite Forall_forall in Fs. specialize (Fs u Hu). cbv beta in Fs. lra.
  - exfalso. destruct Hu as [<-|Hu]; [apply C; exact A|]. rewrite Forall_forall in Fs. specialize (Fs u Hu). cbv beta in Fs. lra.
Qed.
Lemma status_nth h ref borders j : (S j < length borders)%nat -> exists v, nth_error borders j = Some v /\ nth_error (check_merged h ref borders) j = Some (crossed h ref v).
Proof.
  intros H. unfold check_merged. rewrite nth_error_map, removelast_nth by exact H. destruct (nth_error borders j) as [v|] eqn:E; [|apply nth_error_None in E; lia]. exists v. split; reflexivity.
Qed.
Lemma run_length_ext (P Q0 : nat -> Prop) len j n : (forall k, (k < len)%nat -> P k <-> Q0 k) -> (j < len)%nat -> run_length P len j n -> run_length Q0 len j n.
Proof.
  intros E Hj [(A & B)|(A & B & C & D & F)]; [left|right].
  - split; [intros X; apply A, E; assumption|exact B].
  - split; [apply E; assumption|]. split; [exact B|]. split; [exact C|]. split; [intros k Hk X; apply (D k Hk), E; [lia|exact X]|]. intros H. apply E; [exact H|apply F, H].
Qed.
(** A border is present at (i, j) in the sense of the specification. *)
Lemma left_border_iff st vb i j : keys_distinct (st_v st) -> (forall x, In x (st_xs st) -> In x (keys (st_v st))) -> lookup_all (st_xs st) (st_v st) = Some vb -> (i < nrows st)%nat -> (j < ncols st)%nat ->
  forall y0 y1 v, nth_error (st_ys st) i = Some y0 -> nth_error (st_ys st) (S i) = Some y1 -> nth_error vb j = Some v ->
  (left_border st i j <-> exists s, In s v /\ s_from false s < middle (y0, y1) /\ middle (y0, y1) < s_to false s).
Proof.
  intros Kd Kx Ev Hi Hj y0 y1 v Y0 Y1 Hv. destruct (lookup_all_nth _ _ _ Ev) as (Lv & Nv).
  destruct (nth_error (st_xs st) j) as [x|] eqn:Ex; [|apply nth_error_None in Ex; unfold ncols in Hj; lia].
  destruct (Nv j x Ex) as (v' & H1 & H2). rewrite Hv in H1. injection H1 as <-.
  assert (Iv : In (x, v) (st_v st)).
  { pose proof (nth_error_In _ _ Ex) as Ix. apply Kx in Ix. apply in_map_iff in Ix. destruct Ix as ((k & w) & Ek & Ik). cbn in Ek. subst k. rewrite (dget_distinct _ _ _ Kd Ik) in H2. injection H2 as ->. exact Ik. }
  unfold left_border, middle. cbn [fst snd s_from s_to]. split.
  - intros (x' & a & b & w & s & E1 & E2 & E3 & E4 & E5 & E6). rewrite Ex in E1. injection E1 as <-. rewrite Y0 in E2. injection E2 as <-. rewrite Y1 in E3. injection E3 as <-.
    rewrite (dget_distinct _ _ _ Kd E4) in H2. injection H2 as ->. exists s. split; [exact E5|exact E6].
  - intros (s & Hs & A). exists x, y0, y1, v, s. repeat (split; [assumption|]). exact A.
Qed.
Lemma top_border_iff st hb i j : keys_distinct (st_h st) -> (forall x, In x (st_ys st) -> In x (keys (st_h st))) -> lookup_all (st_ys st) (st_h st) = Some hb -> (i < nrows st)%nat -> (j < ncols st)%nat ->
  forall x0 x1 v, nth_error (st_xs st) j = Some x0 -> nth_error (st_xs st) (S j) = Some x1 -> nth_error hb i = Some v ->
  (top_border st i j <-> exists s, In s v /\ s_from true s < middle (x0, x1) /\ middle (x0, x1) < s_to true s).
Proof.
  intros Kd Kx Ev Hi Hj x0 x1 v X0 X1 Hv. destruct (lookup_all_nth _ _ _ Ev) as (Lv & Nv).
  destruct (nth_error (st_ys st) i) as [x|] eqn:Ex; [|apply nth_error_None in Ex; unfold nrows in Hi; lia].
  destruct (Nv i x Ex) as (v' & H1 & H2). rewrite Hv in H1. injection H1 as <-.
  assert (Iv : In (x, v) (st_h st)).
  { pose proof (nth_error_In _ _ Ex) as Ix. apply Kx in Ix. apply in_map_iff in Ix. destruct Ix as ((k & w) & Ek & Ik). cbn in Ek. subst k. rewrite (dget_distinct _ _ _ Kd Ik) in H2. injection H2 as ->. exact Ik. }
  unfold top_border, middle. cbn [fst snd s_from s_to]. split.
  - intros (x' & a & b & w & s & E1 & E2 & E3 & E4 & E5 & E6). rewrite Ex in E1. injection E1 as <-. rewrite X0 in E2. injection E2 as <-. rewrite X1 in E3. injection E3 as <-.
    rewrite (dget_distinct _ _ _ Kd E4) in H2. injection H2 as ->. exists s. split; [exact E5|exact E6].
  - intros (s & Hs & A). exists x, x0, x1, v, s. repeat (split; [assumption|]). exact A.
Qed.
Lemma group_h_v_distinct c w strokes hd vd : group_h_v c w strokes = Some (hd, vd) -> keys_distinct hd /\ keys_distinct vd.
Proof.
  unfold group_h_v. destruct (h_part strokes) as [|a hs]; [discriminate|]. destruct (v_part strokes) as [|b vs]; [discriminate|]. intros H. injection H as <- <-.
  split; apply check_outer_distinct, check_outer_distinct, group_distinct.
Qed.

(* ------------------------------------------------------------------ *)
(** * The region and what both checks keep *)
Lemma round1_list_min l : l <> [] -> (exists x, In x l /\ round1 (list_min l) = round1 x) /\ forall x, In x l -> round1 (list_min l) <= round1 x.
Proof. intros N. destruct (list_min_spec l N) as (I & M). split; [exists (list_min l); auto|]. intros x Hx. apply round_p_mono, M, Hx. Qed.
Lemma round1_list_max l : l <> [] -> (exists x, In x l /\ round1 (list_max l) = round1 x) /\ forall x, In x l -> round1 x <= round1 (list_max l).
Proof. intros N. destruct (list_max_spec l N) as (I & M). split; [exists (list_max l); auto|]. intros x Hx. apply round_p_mono, M, Hx. Qed.
Lemma spanned_region strokes r : spanned strokes r -> h_part strokes <> [] -> v_part strokes <> [] -> req (table_region (h_part strokes) (v_part strokes)) r.
Proof.
  intros ((s1 & I1 & H1 & E1) & (s2 & I2 & H2 & E2) & (s3 & I3 & H3 & V3 & E3) & (s4 & I4 & H4 & V4 & E4) & Ah & Av) Nh Nv.
  assert (Fh : forall s, In s (h_part strokes) <-> In s strokes /\ horizontal s = true) by (intros; apply filter_In).
  assert (Fv : forall s, In s (v_part strokes) <-> In s strokes /\ horizontal s = false /\ vertical s = true).
  { intros s. unfold v_part. rewrite filter_In, andb_true_iff, Bool.negb_true_iff. tauto. }
  assert (Mh : forall f : shape -> Q, map f (h_part strokes) <> []) by (intros f Z; apply map_eq_nil in Z; auto).
  assert (Mv : forall f : shape -> Q, map f (v_part strokes) <> []) by (intros f Z; apply map_eq_nil in Z; auto).
  unfold table_region, rround, req. cbn [rx0 ry0 rx1 ry1].
  destruct (round1_list_min _ (Mh sh_x0)) as ((x & Ix & Ex) & Lx). destruct (round1_list_max _ (Mh sh_x1)) as ((y & Iy & Ey) & Ly).
  destruct (round1_list_min _ (Mv sh_y0)) as ((z & Iz & Ez) & Lz). destruct (round1_list_max _ (Mv sh_y1)) as ((u & Iu & Eu) & Lu).
  apply in_map_iff in Ix, Iy, Iz, Iu. destruct Ix as (a & <- & Ia), Iy as (b & <- & Ib), Iz as (d & <- & Id), Iu as (e & <- & Ie).
  apply Fh in Ia, Ib. apply Fv in Id, Ie. destruct Ia as (Ia & Ha), Ib as (Ib & Hb), Id as (Id & Hd & Vd), Ie as (Ie & He & Ve).
  pose proof (Lx _ (in_map sh_x0 _ _ (proj2 (Fh s1) (conj I1 H1)))) as B1. pose proof (Ly _ (in_map sh_x1 _ _ (proj2 (Fh s2) (conj I2 H2)))) as B2.
  pose proof (Lz _ (in_map sh_y0 _ _ (proj2 (Fv s3) (conj I3 (conj H3 V3))))) as B3. pose proof (Lu _ (in_map sh_y1 _ _ (proj2 (Fv s4) (conj I4 (conj H4 V4))))) as B4.
  pose proof (proj1 (Ah a Ia Ha)) as C1. pose proof (proj2 (Ah b Ib Hb)) as C2. pose proof (proj1 (Av d Id Hd Vd)) as C3. pose proof (proj2 (Av e Ie He Ve)) as C4.
  rewrite <- E1 in B1. rewrite <- E2 in B2. rewrite <- E3 in B3. rewrite <- E4 in B4. rewrite <- Ex in C1. rewrite <- Ey in C2. rewrite <- Ez in C3. rewrite <- Eu in C4.
  repeat split; apply Qle_antisym; assumption.
Qed.
Lemma region_decimal hs vs : rect_decimal (table_region hs vs).
Proof. apply rround_decimal. Qed.
Lemma region_valid strokes : (forall s, In s strokes -> sh_x0 s <= sh_x1 s /\ sh_y0 s <= sh_y1 s) -> h_part strokes <> [] -> v_part strokes <> [] -> valid (table_region (h_part strokes) (v_part strokes)).
Proof.
  intros V Nh Nv. apply rround_valid. split; cbn [rx0 ry0 rx1 ry1].
  - destruct (h_part strokes) as [|s t] eqn:E; [congruence|]. assert (In s strokes) as I by (assert (In s (h_part strokes)) as J by (rewrite E; left; reflexivity); apply filter_In in J; apply J).
    assert (M : forall f : shape -> Q, map f (s :: t) <> []) by (intros f; discriminate).
    pose proof (proj2 (list_min_spec _ (M sh_x0)) (sh_x0 s) (or_introl eq_refl)). pose proof (proj2 (list_max_spec _ (M sh_x1)) (sh_x1 s) (or_introl eq_refl)). destruct (V s I). lra.
  - destruct (v_part strokes) as [|s t] eqn:E; [congruence|]. assert (In s strokes) as I by (assert (In s (v_part strokes)) as J by (rewrite E; left; reflexivity); apply filter_In in J; apply J).
    assert (M : forall f : shape -> Q, map f (s :: t) <> []) by (intros f; discriminate).
    pose proof (proj2 (list_min_spec _ (M sh_y0)) (sh_y0 s) (or_introl eq_refl)). pose proof (proj2 (list_max_spec _ (M sh_y1)) (sh_y1 s) (or_introl eq_refl)). destruct (V s I). lra.
Qed.
Lemma group_h_v_inv c w strokes hd vd : group_h_v c w strokes = Some (hd, vd) -> h_part strokes <> [] /\ v_part strokes <> [] /\
  let r := table_region (h_part strokes) (v_part strokes) in
  hd = check_outer r w true false (check_outer r w true true (group_dir true c (h_part strokes))) /\
  vd = check_outer r w false false (check_outer r w false true (group_dir false c (v_part strokes))).
Proof.
  unfold group_h_v. destruct (h_part strokes) as [|a hs]; [discriminate|]. destruct (v_part strokes) as [|b vs]; [discriminate|]. intros H. injection H as <- <-.
  split; [discriminate|]. split; [discriminate|]. split; reflexivity.
Qed.
Lemma lines_inv c w strokes fills st : parse_structure c w strokes fills = Parsed st ->
  h_part strokes <> [] /\ v_part strokes <> [] /\ forall h, let r := table_region (h_part strokes) (v_part strokes) in
    lines_of h st = check_outer r w h false (check_outer r w h true (group_dir h c (dir_part h strokes))) /\ (2 <= length (lines_of h st))%nat.
Proof.
  intros P. destruct (parse_inv _ _ _ _ _ P) as (vb & hb & G & Ex & Ey & Lx & Ly & _). destruct (group_h_v_inv _ _ _ _ _ G) as (Nh & Nv & Eh & Ev).
  split; [exact Nh|]. split; [exact Nv|]. intros h. cbv zeta in *. rewrite Ex, sorted_keys_length in Lx. rewrite Ey, sorted_keys_length in Ly. destruct h; (split; [assumption|]); cbn [lines_of]; lia.
Qed.
Lemma dir_part_incl h strokes s : In s (dir_part h strokes) -> In s strokes.
Proof. destruct h; cbn [dir_part]; intros H; apply filter_In in H; apply H. Qed.
Lemma dir_part_not_nil h strokes : h_part strokes <> [] -> v_part strokes <> [] -> dir_part h strokes <> [].
Proof. destruct h; auto. Qed.
(** Keys of a clear group lie in the hull of its coordinates. *)
Lemma clear_kept h c w r l s : 0 <= c -> 0 <= w -> valid r -> clear_lines h c l -> (forall t, In t l -> shape_bool t = true) -> In s l ->
  (forall t, In t l -> b_at h true r - w <= coord h t /\ coord h t <= b_at h false r + w) ->
  exists k v, In (k, v) (check_outer r w h false (check_outer r w h true (group_dir h c l))) /\
    (forall t, In t l -> near c (coord h t) (coord h s) -> In t v) /\ (forall t, In t v -> (In t l /\ near c (coord h t) (coord h s)) \/ sh_width t == 0) /\
    exists a b, In a l /\ In b l /\ near c (coord h a) (coord h s) /\ near c (coord h b) (coord h s) /\ coord h a <= k <= coord h b.
Proof.
  intros Hc Hw Vr Cl B Is Ins. destruct (group_ok h c Hc l Cl B) as (Fo & Pw & Pm). set (d := group_dir h c l) in *. set (d1 := check_outer r w h true d).
  assert (Hs : In s (flat_map snd d)) by (eapply Permutation_in; [apply Permutation_sym; exact Pm|exact Is]). apply in_flat_map in Hs. destruct Hs as ((k & v) & Hk & Hsv). cbn [snd] in Hsv.
  rewrite Forall_forall in Fo. pose proof (Fo _ Hk) as (Nv & F & a & b & Ha & Hb & Hull). cbn [snd fst] in *.
  assert (Kd : keys_distinct d) by apply group_distinct. assert (N : d <> []) by (intros Z; rewrite Z in Hk; destruct Hk).
  assert (N1 : d1 <> []) by (apply check_outer_nonempty; exact N).
  assert (Hullk : forall q, In q (keys d) -> exists a b, In a l /\ In b l /\ coord h a <= q <= coord h b).
  { intros q Hq. apply in_map_iff in Hq. destruct Hq as (e & <- & He). destruct (Fo e He) as (_ & F' & a' & b' & A1 & B1 & K1). exists a', b'. split; [apply (F' a' A1)|]. split; [apply (F' b' B1)|exact K1]. }
  assert (Sb : b_at h true r <= b_at h false r) by (destruct Vr; destruct h; assumption).
  (* first side *)
  destruct (check_outer_keeps r w h true d k v N (dget_distinct _ _ _ Kd Hk)) as [(Ek & L)|(v1 & E1 & K1 & O1)].
  { exfalso. pose proof (side_current_in true d N) as Ic. destruct (Hullk _ Ic) as (a0 & a1 & A0 & A1 & B0). pose proof (Ins a0 A0) as (I0 & _).
    assert (side_current true d <= k) by (apply list_min_spec; [destruct d; [congruence|discriminate]|apply in_map_iff; exists (k, v); auto]).
    apply Qlt_not_le in L. apply L, Qabs_le. lra. }
  destruct (check_outer_keeps r w h false d1 k v1 N1 E1) as [(Ek & L)|(v2 & E2 & K2 & O2)].
  { exfalso. pose proof (side_current_in false d1 N1) as Ic. assert (Hk1 : In k (keys d1)) by (apply check_outer_keys_keep, in_map_iff; exists (k, v); auto).
    assert (Mx : k <= side_current false d1) by (apply list_max_spec; [destruct d1; [congruence|discriminate]|exact Hk1]).
    apply Qlt_not_le in L. apply L, Qabs_le.
    destruct (check_outer_keys r w h true d _ N Ic) as [Iq|(Eq & _)].
    - destruct (Hullk _ Iq) as (b1 & b0 & B1 & B0 & K0). pose proof (Ins b0 B0) as (_ & I0). lra.
    - rewrite Eq in *. lra. }
  destruct (dget_In _ _ _ E2) as (k' & Ik' & Ekk). exists k', v2. split; [exact Ik'|].
  assert (Ev : forall t, In t v -> In t l /\ near c (coord h t) (coord h s)).
  { intros t Ht. destruct (F s Hsv) as (_ & Es). rewrite Es in Ht. apply filter_In in Ht. destruct Ht as (A0 & B0). split; [exact A0|apply nearb_spec; exact B0]. }
  split; [|split].
  - intros t Ht Nt. apply K2, K1. destruct (F s Hsv) as (_ & Es). rewrite Es. apply filter_In. split; [exact Ht|apply nearb_spec; exact Nt].
  - intros t Ht. destruct (O2 t Ht) as [Ht1|(f & e & ->)]; [|right; apply dummy_width]. destruct (O1 t Ht1) as [Ht2|(f & e & ->)]; [|right; apply dummy_width]. left. apply Ev, Ht2.
  - exists a, b. split; [apply Ev, Ha|]. split; [apply Ev, Hb|]. split; [apply Ev, Ha|]. split; [apply Ev, Hb|]. lra.
Qed.

(* ------------------------------------------------------------------ *)
(** * Counts of a parsed table *)
Lemma counts c w strokes fills st i j ce : parse_structure c w strokes fills = Parsed st -> ordered_strokes true (st_h st) -> ordered_strokes false (st_v st) -> cell_at st i j ce ->
  run_length (fun k => left_border st i k) (ncols st) j (ce_cols ce) /\ run_length (fun k => top_border st k j) (nrows st) i (ce_rows ce).
Proof.
  intros P Oh Ov Hc. destruct (parse_inv _ _ _ _ _ P) as (vb & hb & G & Ex & Ey & Lx & Ly & Ev & Eh & Lc & Lr & _). destruct (group_h_v_distinct _ _ _ _ _ G) as (Dh & Dv).
  destruct (cell_shell _ _ _ _ _ _ _ P Ev Eh i j ce Hc) as (Hi & Hj & Sh). unfold shell, merge_cell in Sh. cbn [ce_rows ce_cols ce_bbox] in Sh. injection Sh as S1 S2 _. rewrite S1, S2. unfold status_at.
  destruct (lookup_all_nth _ _ _ Ev) as (Lvb & Nvb). destruct (lookup_all_nth _ _ _ Eh) as (Lhb & Nhb). unfold nrows, ncols in *.
  assert (Kx : forall x, In x (st_xs st) -> In x (keys (st_v st))) by (intros x Hx; rewrite Ex in Hx; apply sorted_keys_In; exact Hx).
  assert (Ky : forall x, In x (st_ys st) -> In x (keys (st_h st))) by (intros x Hx; rewrite Ey in Hx; apply sorted_keys_In; exact Hx).
  split.
  - destruct (row_status_nth (st_xs st) (st_ys st) vb i) as (y0 & y1 & Y0 & Y1 & ->); [lia|]. set (l := check_merged false (middle (y0, y1)) vb).
    assert (Ll : length l = (length (st_xs st) - 1)%nat) by (unfold l; rewrite check_merged_length, Lvb; reflexivity). rewrite <- Ll in *.
    apply (run_length_ext (fun k => nth_error l k = Some true)); [|exact Hj|apply count_run; exact Hj].
    intros k Hk. destruct (status_nth false (middle (y0, y1)) vb k) as (v & Hv & Hs); [lia|]. fold l in Hs. rewrite Hs.
    destruct (lookup_all_nth _ _ _ Ev) as (_ & Nv). destruct (nth_error (st_xs st) k) as [x|] eqn:Exk; [|apply nth_error_None in Exk; lia]. destruct (Nv k x Exk) as (v' & H1 & H2). rewrite Hv in H1. injection H1 as <-.
    destruct (dget_In _ _ _ H2) as (x' & Ix & _). pose proof (Ov x' v Ix) as So.
    rewrite (left_border_iff st vb i k Dv Kx Ev ltac:(unfold nrows; lia) ltac:(unfold ncols; lia) y0 y1 v Y0 Y1 Hv). split.
    + intros H. injection H as H. apply crossed_sound in H. exact H.
    + intros H. f_equal. apply crossed_complete; [exact So|exact H].
  - destruct (col_status_nth (st_xs st) (st_ys st) hb j) as (y0 & y1 & Y0 & Y1 & ->); [lia|]. set (l := check_merged true (middle (y0, y1)) hb).
    assert (Ll : length l = (length (st_ys st) - 1)%nat) by (unfold l; rewrite check_merged_length, Lhb; reflexivity). rewrite <- Ll in *.
    apply (run_length_ext (fun k => nth_error l k = Some true)); [|exact Hi|apply count_run; exact Hi].
    intros k Hk. destruct (status_nth true (middle (y0, y1)) hb k) as (v & Hv & Hs); [lia|]. fold l in Hs. rewrite Hs.
    destruct (lookup_all_nth _ _ _ Eh) as (_ & Nv). destruct (nth_error (st_ys st) k) as [x|] eqn:Exk; [|apply nth_error_None in Exk; lia]. destruct (Nv k x Exk) as (v' & H1 & H2). rewrite Hv in H1. injection H1 as <-.
    destruct (dget_In _ _ _ H2) as (x' & Ix & _). pose proof (Oh x' v Ix) as So.
    rewrite (top_border_iff st hb k j Dh Ky Eh ltac:(unfold nrows; lia) ltac:(unfold ncols; lia) y0 y1 v Y0 Y1 Hv). split.
    + intros H. injection H as H. apply crossed_sound in H. exact H.
    + intros H. f_equal. apply crossed_complete; [exact So|exact H].
Qed.
(** Without any order, a counted border is present. *)
Lemma counts_sound c w strokes fills st i j ce : parse_structure c w strokes fills = Parsed st -> cell_at st i j ce ->
  ((0 < ce_cols ce)%nat -> left_border st i j) /\ ((0 < ce_rows ce)%nat -> top_border st i j).
Proof.
  intros P Hc. destruct (parse_inv _ _ _ _ _ P) as (vb & hb & G & Ex & Ey & Lx & Ly & Ev & Eh & Lc & Lr & _). destruct (group_h_v_distinct _ _ _ _ _ G) as (Dh & Dv).
  destruct (cell_shell _ _ _ _ _ _ _ P Ev Eh i j ce Hc) as (Hi & Hj & Sh). unfold shell, merge_cell in Sh. cbn [ce_rows ce_cols ce_bbox] in Sh. injection Sh as S1 S2 _. rewrite S1, S2. unfold status_at.
  destruct (lookup_all_nth _ _ _ Ev) as (Lvb & Nvb). destruct (lookup_all_nth _ _ _ Eh) as (Lhb & Nhb). unfold nrows, ncols in *.
  assert (Kx : forall x, In x (st_xs st) -> In x (keys (st_v st))) by (intros x Hx; rewrite Ex in Hx; apply sorted_keys_In; exact Hx).
  assert (Ky : forall x, In x (st_ys st) -> In x (keys (st_h st))) by (intros x Hx; rewrite Ey in Hx; apply sorted_keys_In; exact Hx).
  split.
  - destruct (row_status_nth (st_xs st) (st_ys st) vb i) as (y0 & y1 & Y0 & Y1 & ->); [lia|]. destruct (status_nth false (middle (y0, y1)) vb j) as (v & Hv & Hs); [lia|].
    rewrite (left_border_iff st vb i j Dv Kx Ev Hi Hj y0 y1 v Y0 Y1 Hv). intros H. apply crossed_sound.
    assert (N0 : nth_error (skipn j (check_merged false (middle (y0, y1)) vb)) 0 = Some (crossed false (middle (y0, y1)) v)) by (rewrite nth_error_skipn, Nat.add_0_r; exact Hs).
    destruct (skipn j _) as [|b t]; [discriminate|]. cbn in N0. injection N0 as N0. destruct b; [congruence|cbn in H; lia].
  - destruct (col_status_nth (st_xs st) (st_ys st) hb j) as (y0 & y1 & Y0 & Y1 & ->); [lia|]. destruct (status_nth true (middle (y0, y1)) hb i) as (v & Hv & Hs); [lia|].
    rewrite (top_border_iff st hb i j Dh Ky Eh Hi Hj y0 y1 v Y0 Y1 Hv). intros H. apply crossed_sound.
    assert (N0 : nth_error (skipn i (check_merged true (middle (y0, y1)) hb)) 0 = Some (crossed true (middle (y0, y1)) v)) by (rewrite nth_error_skipn, Nat.add_0_r; exact Hs).
    destruct (skipn i _) as [|b t]; [discriminate|]. cbn in N0. injection N0 as N0. destruct b; [congruence|cbn in H; lia].
Qed.
Lemma sum_counts l : (total (map (fun j => count_merged (skipn j l)) (seq 0 (length l))) + zeros l = length l)%nat.
Proof.
  induction l as [|b t IH]; [reflexivity|]. cbn [length seq map total]. rewrite <- seq_shift, map_map.
  rewrite (map_ext (fun x => count_merged (skipn (S x) (b :: t))) (fun j => count_merged (skipn j t))) by reflexivity.
  destruct b; cbn [skipn count_merged zeros]; lia.
Qed.
Lemma nth_error_ext {A} : forall l l' : list A, (forall i, nth_error l i = nth_error l' i) -> l = l'.
Proof.
  induction l as [|x l IH]; intros [|y l'] H; [reflexivity|specialize (H 0%nat); discriminate|specialize (H 0%nat); discriminate|].
  pose proof (H 0%nat) as H0. injection H0 as ->. f_equal. apply IH. intros i. apply (H (S i)).
Qed.
Lemma row_sum c w strokes fills st i r : parse_structure c w strokes fills = Parsed st -> nth_error (st_cells st) i = Some r ->
  (forall ce, nth_error r 0 = Some ce -> (0 < ce_cols ce)%nat) -> total (map ce_cols r) = ncols st.
Proof.
  intros P Hr H0. destruct (parse_inv _ _ _ _ _ P) as (vb & hb & G & Ex & Ey & Lx & Ly & Ev & Eh & Lc & Lr & _).
  assert (Hi : (i < nrows st)%nat) by (rewrite <- Lc; apply nth_error_Some; congruence).
  destruct (row_status_nth (st_xs st) (st_ys st) vb i) as (y0 & y1 & Y0 & Y1 & Est); [unfold nrows in Hi; lia|]. set (l := check_merged false (middle (y0, y1)) vb) in *.
  destruct (lookup_all_nth _ _ _ Ev) as (Lvb & _). assert (Ll : length l = ncols st) by (unfold l, ncols; rewrite check_merged_length, Lvb; reflexivity).
  assert (Er : map ce_cols r = map (fun j => count_merged (skipn j l)) (seq 0 (length l))).
  { apply nth_error_ext. intros j. destruct (Nat.lt_ge_cases j (length r)) as [L|L].
    - destruct (nth_error r j) as [ce|] eqn:Ej; [|apply nth_error_None in Ej; lia]. destruct (cell_shell _ _ _ _ _ _ _ P Ev Eh i j ce) as (_ & Hj & Sh); [exists r; auto|].
      unfold shell, merge_cell in Sh. cbn [ce_rows ce_cols ce_bbox] in Sh. injection Sh as _ S2 _. unfold status_at in S2. rewrite Est in S2.
      rewrite !nth_error_map, Ej, seq_nth_error by lia. cbn. rewrite S2. reflexivity.
    - rewrite (proj2 (nth_error_None _ _)) by (rewrite map_length; exact L). symmetry. apply nth_error_None. rewrite map_length, seq_length, Ll. rewrite (Lr r (nth_error_In _ _ Hr)) in L. exact L. }
  rewrite Er. pose proof (sum_counts l) as Sm. assert (Z : zeros l = 0%nat); [|lia].
  destruct (nth_error r 0) as [ce|] eqn:E0.
  - specialize (H0 ce eq_refl). pose proof (nth_error_map ce_cols 0 r) as M. rewrite E0 in M. rewrite Er in M. destruct l as [|b t]; [reflexivity|]. cbn in M. injection M as M. destruct b; [reflexivity|cbn in M; lia].
  - apply nth_error_None in E0. pose proof (Lr r (nth_error_In _ _ Hr)). unfold ncols in *. lia.
Qed.
Lemma col_sum c w strokes fills st j : parse_structure c w strokes fills = Parsed st -> (j < ncols st)%nat ->
  (forall ce, cell_at st 0 j ce -> (0 < ce_rows ce)%nat) -> forall col, length col = nrows st -> (forall i ce, nth_error col i = Some ce -> cell_at st i j ce) -> total (map ce_rows col) = nrows st.
Proof.
  intros P Hj H0 col Lcol Hcol. destruct (parse_inv _ _ _ _ _ P) as (vb & hb & G & Ex & Ey & Lx & Ly & Ev & Eh & Lc & Lr & _).
  destruct (col_status_nth (st_xs st) (st_ys st) hb j) as (y0 & y1 & Y0 & Y1 & Est); [unfold ncols in Hj; lia|]. set (l := check_merged true (middle (y0, y1)) hb) in *.
  destruct (lookup_all_nth _ _ _ Eh) as (Lhb & _). assert (Ll : length l = nrows st) by (unfold l, nrows; rewrite check_merged_length, Lhb; reflexivity).
  assert (Er : map ce_rows col = map (fun i => count_merged (skipn i l)) (seq 0 (length l))).
  { apply nth_error_ext. intros i. destruct (Nat.lt_ge_cases i (length col)) as [L|L].
    - destruct (nth_error col i) as [ce|] eqn:Ei; [|apply nth_error_None in Ei; lia]. destruct (cell_shell _ _ _ _ _ _ _ P Ev Eh i j ce (Hcol i ce Ei)) as (_ & _ & Sh).
      unfold shell, merge_cell in Sh. cbn [ce_rows ce_cols ce_bbox] in Sh. injection Sh as S1 _ _. unfold status_at in S1. rewrite Est in S1.
      rewrite !nth_error_map, Ei, seq_nth_error by lia. cbn. rewrite S1. reflexivity.
    - rewrite (proj2 (nth_error_None _ _)) by (rewrite map_length; exact L). symmetry. apply nth_error_None. rewrite map_length, seq_length. lia. }
  rewrite Er. pose proof (sum_counts l) as Sm. assert (Z : zeros l = 0%nat); [|lia].
  destruct (nth_error col 0) as [ce|] eqn:E0.
  - specialize (H0 ce (Hcol _ _ E0)). pose proof (nth_error_map ce_rows 0 col) as M. rewrite E0 in M. rewrite Er in M. destruct l as [|b t]; [reflexivity|]. cbn in M. injection M as M. destruct b; [reflexivity|cbn in M; lia].
  - apply nth_error_None in E0. unfold nrows in *. lia.
Qed.
(** Run lengths are determined. *)
Lemma run_length_fun P len j n m : run_length P len j n -> run_length P len j m -> n = m.
Proof.
  intros [(A & ->)|(A & A1 & A2 & A3 & A4)] [(B & ->)|(B & B1 & B2 & B3 & B4)]; try tauto.
  destruct (Nat.lt_trichotomy n m) as [L|[L|L]]; [|exact L|].
  - exfalso. apply (B3 (j + n)%nat); [lia|apply A4; lia].
  - exfalso. apply (A3 (j + m)%nat); [lia|apply B4; lia].
Qed.
(** Edges of a region of a partition. *)
Lemma region_run nr nc g (part : partition nr nc g) p q i j m n : (p < nr)%nat -> (q < nc)%nat -> g p q = (i, j, m, n) ->
  run_length (fun k => reg_left (g i k) = k) nc j n /\ run_length (fun k => reg_top (g k j) = k) nr i m /\ (i < nr)%nat /\ (j < nc)%nat.
Proof.
  intros Hp Hq E. destruct (part p q Hp Hq) as (I0 & A0). rewrite E in *. cbn [in_region] in I0.
  assert (Cor : in_region (i, j, m, n) i j) by (cbn; lia). destruct (A0 i j Cor) as (Hi & Hj & Eij).
  split; [|split; [|split; assumption]]; right.
  - split; [rewrite Eij; reflexivity|]. split; [lia|]. split.
    + destruct (A0 i (j + n - 1)%nat) as (_ & L & _); [cbn; lia|]. lia.
    + split.
      * intros k Hk. destruct (A0 i k) as (_ & _ & ->); [cbn; lia|]. cbn. lia.
      * intros L. destruct (part i (j + n)%nat Hi L) as (I1 & A1). destruct (g i (j + n)%nat) as [[[i' j'] m'] n'] eqn:E'. cbn [in_region reg_left] in *.
        destruct (Nat.eq_dec j' (j + n)) as [?|Ne]; [assumption|exfalso].
        destruct (A1 i (j + n - 1)%nat) as (_ & _ & X); [lia|]. destruct (A0 i (j + n - 1)%nat) as (_ & _ & Y); [cbn; lia|]. rewrite X in Y. injection Y as -> -> -> ->. lia.
  - split; [rewrite Eij; reflexivity|]. split; [lia|]. split.
    + destruct (A0 (i + m - 1)%nat j) as (L & _ & _); [cbn; lia|]. lia.
    + split.
      * intros k Hk. destruct (A0 k j) as (_ & _ & ->); [cbn; lia|]. cbn. lia.
      * intros L. destruct (part (i + m)%nat j L Hj) as (I1 & A1). destruct (g (i + m)%nat j) as [[[i' j'] m'] n'] eqn:E'. cbn [in_region reg_top] in *.
        destruct (Nat.eq_dec i' (i + m)) as [?|Ne]; [assumption|exfalso].
        destruct (A1 (i + m - 1)%nat j) as (_ & _ & X); [lia|]. destruct (A0 (i + m - 1)%nat j) as (_ & _ & Y); [cbn; lia|]. rewrite X in Y. injection Y as -> -> -> ->. lia.
Qed.

(* ------------------------------------------------------------------ *)
(** * Borders of a cell *)
Lemma shared_le h a b s : shared h a b s <= b - a /\ shared h a b s <= s_to h s - a /\ shared h a b s <= b - s_from h s.
Proof. unfold shared. destruct (qmin_cases' b (s_to h s)) as [(E1 & L1)|(E1 & L1)]; destruct (qmax_cases' a (s_from h s)) as [(E2 & L2)|(E2 & L2)]; rewrite E1, E2; lra. Qed.
Definition cands (h : bool) (a b : Q) (v : list shape) : list shape := filter (fun u => Qle_bool 5 (shared h a b u)) v.
Lemma qsum_comp l l' : Forall2 Qeq l l' -> qsum l == qsum l'.
Proof. induction 1 as [|x y l l' E F IH]; cbn [qsum]; [reflexivity|]. rewrite E, IH. reflexivity. Qed.
Lemma cands_none h a b v : (forall s, In s v -> shared h a b s < 5) -> cands h a b v = [].
Proof.
  unfold cands. induction v as [|s t IH]; intros H; [reflexivity|]. cbn [filter]. destruct (Qle_bool 5 (shared h a b s)) eqn:E; [apply Qle_bool_iff in E; specialize (H s (or_introl eq_refl)); lra|].
  apply IH. intros u Hu. apply H. right. exact Hu.
Qed.
Lemma scan_spec h a b v : StronglySorted (fun x y => s_from h x <= s_from h y) v -> snd (border_scan h a b v) = cands h a b v /\ fst (border_scan h a b v) == qsum (map (shared h a b) (cands h a b v)).
Proof.
  induction 1 as [|s t St IH Fs]; [split; reflexivity|]. cbn [border_scan].
  destruct (qle_spec (s_to h s) a) as [L|L].
  - assert (C : cands h a b (s :: t) = cands h a b t).
    { unfold cands. cbn [filter]. destruct (Qle_bool 5 (shared h a b s)) eqn:E; [|reflexivity]. apply Qle_bool_iff in E. pose proof (shared_le h a b s). lra. }
    rewrite C. exact IH.
  - destruct (qle_spec b (s_from h s)) as [L'|L'].
    + rewrite cands_none; [split; reflexivity|]. intros u [<-|Hu]; [pose proof (shared_le h a b s); lra|]. rewrite Forall_forall in Fs. specialize (Fs u Hu). cbv beta in Fs. pose proof (shared_le h a b u). lra.
    + fold (shared h a b s). destruct (qlt_spec (shared h a b s) MAJOR_DIST) as [G|G]; unfold MAJOR_DIST in G.
      * assert (C : cands h a b (s :: t) = cands h a b t).
        { unfold cands. cbn [filter]. destruct (Qle_bool 5 (shared h a b s)) eqn:E; [|reflexivity]. apply Qle_bool_iff in E. lra. }
        rewrite C. exact IH.
      * assert (C : cands h a b (s :: t) = s :: cands h a b t).
        { unfold cands. cbn [filter]. destruct (Qle_bool 5 (shared h a b s)) eqn:E; [reflexivity|]. exfalso. assert (5 <= shared h a b s) by lra. apply Qle_bool_iff in H. congruence. }
        rewrite C. destruct (border_scan h a b t) as [L0 r]. cbn [fst snd map qsum] in *. destruct IH as (-> & ->). split; reflexivity.
Qed.
Lemma scan_sound h a b v : forall s, In s (snd (border_scan h a b v)) -> In s v /\ 5 <= shared h a b s.
Proof.
  induction v as [|x t IH]; intros s H; [destruct H|]. cbn [border_scan] in H. destruct (qle (s_to h x) a); [destruct (IH s H); split; [right|]; assumption|]. destruct (qle b (s_from h x)); [destruct H|].
  fold (shared h a b x) in H. destruct (qlt_spec (shared h a b x) MAJOR_DIST) as [G|G]; unfold MAJOR_DIST in G.
  - destruct (IH s H). split; [right|]; assumption.
  - destruct (border_scan h a b t) as [L0 r] eqn:E. cbn [snd] in *. destruct H as [<-|H]; [split; [left; reflexivity|lra]|]. destruct (IH s H). split; [right|]; assumption.
Qed.
Lemma border_sound h a b v : border_stroke h a b v = empty_stroke \/ (In (border_stroke h a b v) v /\ 5 <= shared h a b (border_stroke h a b v)).
Proof.
  unfold border_stroke. destruct v as [|x t]; [left; reflexivity|]. pose proof (scan_sound h a b (x :: t)) as S0. destruct (border_scan h a b (x :: t)) as [L0 bs]. cbn [snd] in S0.
  destruct (qlt _ _); [left; reflexivity|]. destruct bs as [|s bs]; [left; reflexivity|]. destruct (forallb _ _); [right|left; reflexivity]. apply S0. left. reflexivity.
Qed.
Lemma border_rule_ok h a b v : a < b -> StronglySorted (fun x y => s_from h x <= s_from h y) v -> border_rule h a b v (border_stroke h a b v).
Proof.
  intros L So. pose proof (scan_spec h a b v So) as (E1 & E2). unfold border_rule. cbv zeta. fold (cands h a b v).
  unfold border_stroke. destruct v as [|x t]; [right; split; [intros (N & _); apply N; reflexivity|reflexivity]|].
  destruct (border_scan h a b (x :: t)) as [L0 bs]. cbn [fst snd] in E1, E2. subst bs. set (cs := cands h a b (x :: t)) in *.
  assert (Dv : L0 / (b - a) < 3 # 4 <-> L0 < (3 # 4) * (b - a)).
  { assert (Po : 0 < b - a) by lra. split; intros H.
    - assert (Z : L0 == L0 / (b - a) * (b - a)) by (field; lra). rewrite Z. apply Qmult_lt_r; assumption.
    - apply Qlt_shift_div_r; [exact Po|exact H]. }
  destruct (qlt_spec (L0 / (b - a)) FACTOR_MAJOR) as [G|G]; unfold FACTOR_MAJOR in G; rewrite Dv in G.
  - right. split; [|reflexivity]. intros (_ & X & _). lra.
  - destruct cs as [|s cs']; [right; split; [intros (N & _); apply N; reflexivity|reflexivity]|].
    destruct (forallb (fun u => Z.eqb (sh_color u) (sh_color s)) cs') eqn:F.
    + left. split; [|reflexivity]. split; [discriminate|]. split; [lra|]. rewrite forallb_forall in F.
      assert (All : forall u, In u (s :: cs') -> sh_color u = sh_color s) by (intros u [<-|Hu]; [reflexivity|apply Z.eqb_eq, F, Hu]).
      intros u u' Hu Hu'. rewrite (All u Hu), (All u' Hu'). reflexivity.
    + right. split; [|reflexivity]. intros (_ & _ & X). assert (forallb (fun u => Z.eqb (sh_color u) (sh_color s)) cs' = true); [|congruence].
      apply forallb_forall. intros u Hu. apply Z.eqb_eq, X; [right; exact Hu|left; reflexivity].
Qed.
(** The finished cell. *)
Lemma cell_finish c w strokes fills st i j ce : parse_structure c w strokes fills = Parsed st -> cell_at st i j ce -> is_merged ce = false ->
  exists bs, parse_borders (st_h st) (st_v st) (ce_bbox ce) = Some bs /\ ce_borders ce = Some bs /\ ce_shading ce = parse_shading fills (ce_bbox ce) bs.
Proof.
  intros P Hc M. destruct (parse_inv _ _ _ _ _ P) as (vb & hb & _ & _ & _ & _ & _ & Ev & Eh & Lc & Lr & A). destruct (cell_shell _ _ _ _ _ _ _ P Ev Eh i j ce Hc) as (Hi & Hj & Sh).
  destruct (A i j Hi Hj) as (ce' & Hc' & F). rewrite <- (cell_at_fun _ _ _ _ _ Hc Hc') in F. destruct (finish_shell _ _ _ _ _ F) as (Sh' & M'). rewrite M in M'. unfold finish_cell in F. rewrite <- M' in F.
  destruct (parse_borders _ _ _) as [bs|] eqn:E in F; [|discriminate]. exists bs. injection F as <-. cbn [ce_bbox ce_borders ce_shading]. auto.
Qed.

(* ------------------------------------------------------------------ *)
(** * The table block *)
Lemma combine_nth_error {A B} : forall (l : list A) (m : list B) i, nth_error (combine l m) i = match nth_error l i, nth_error m i with Some a, Some b => Some (a, b) | _, _ => None end.
Proof. induction l as [|a l IH]; intros [|b m] [|i]; cbn; try reflexivity; [destruct (nth_error l i); reflexivity|apply IH]. Qed.
Lemma rows_fit_spec nr nc : forall rows i, rows_fit nr nc i rows = true <-> forall k r, nth_error rows k = Some r -> forall j c, nth_error (br_cells r) j = Some c -> cell_fits nr nc (i + k) j c = true.
Proof.
  induction rows as [|r t IH]; intros i; cbn [rows_fit].
  - split; [intros _ [|k] r H; discriminate|reflexivity].
  - rewrite andb_true_iff, IH, forallb_forall. split.
    + intros (A & B) [|k] r' H j c Hc; cbn in H.
      * injection H as <-. rewrite Nat.add_0_r. apply (A (j, c)). apply (nth_error_In _ j). rewrite combine_nth_error, Hc, seq_nth_error by (apply nth_error_Some; congruence). reflexivity.
      * replace (i + S k)%nat with (S i + k)%nat by lia. apply (B k r' H j c Hc).
    + intros A. split.
      * intros [j c] H. apply In_nth_error in H. destruct H as (n & H). rewrite combine_nth_error in H. destruct (nth_error (seq 0 (length (br_cells r))) n) as [j'|] eqn:E; [|discriminate].
        destruct (nth_error (br_cells r) n) as [c'|] eqn:E2; [|discriminate]. injection H as <- <-. destruct (in_seq_nth _ _ _ E) as (-> & _). cbn [fst snd]. specialize (A 0%nat r eq_refl n c' E2). rewrite Nat.add_0_r in A. exact A.
      * intros k r' H j c Hc. replace (S i + k)%nat with (i + S k)%nat by lia. apply (A (S k) r' H j c Hc).
Qed.
Lemma union_not_empty a b : valid a -> rect_decimal a -> valid b -> rect_decimal b -> rect_empty a = false \/ rect_empty b = false -> rect_empty (union_bbox a b) = false.
Proof.
  intros Va Da Vb Db H. unfold union_bbox.
  assert (Pr : forall r, valid r -> rect_empty r = false <-> proper r).
  { intros r (V1 & V2). unfold rect_empty, proper. rewrite Bool.orb_false_iff. destruct (qeq_spec (rx0 r) (rx1 r)), (qeq_spec (ry0 r) (ry1 r)); split; intros X; try (destruct X; discriminate); try (destruct X; lra); try (split; lra); try (split; reflexivity). }
  assert (Fx : forall r, rect_decimal r -> proper r -> proper (rround r)).
  { intros r D (P1 & P2). pose proof (rround_fixed r D) as (E1 & E2 & E3 & E4). split; lra. }
  assert (Em : forall r, valid r -> proper r -> rect_empty r = false) by (intros r V P; apply Pr; assumption).
  unfold runion. destruct (rect_empty b) eqn:Eb; [|destruct (rect_empty a) eqn:Ea].
  - destruct H as [H|H]; [|discriminate]. apply Em; [apply rround_valid, Va|]. apply Fx; [exact Da|apply Pr; assumption].
  - apply Em; [apply rround_valid, Vb|]. apply Fx; [exact Db|apply Pr; assumption].
  - apply Pr in Ea, Eb; [|assumption|assumption]. destruct Ea as (A1 & A2), Eb as (B1 & B2).
    set (m := mkRect _ _ _ _). assert (Pm : proper m).
    { unfold proper, m. cbn [rx0 ry0 rx1 ry1]. destruct (qmin_cases' (rx0 a) (rx0 b)) as [(-> & ?)|(-> & ?)]; destruct (qmin_cases' (ry0 a) (ry0 b)) as [(-> & ?)|(-> & ?)]; destruct (qmax_cases' (rx1 a) (rx1 b)) as [(-> & ?)|(-> & ?)]; destruct (qmax_cases' (ry1 a) (ry1 b)) as [(-> & ?)|(-> & ?)]; split; lra. }
    assert (Dm : rect_decimal m) by (destruct Da as (? & ? & ? & ?), Db as (? & ? & ? & ?); repeat split; unfold m; cbn [rx0 ry0 rx1 ry1]; first [apply decimal_qmin | apply decimal_qmax]; assumption).
    apply Em; [apply rround_valid; destruct Pm; split; lra|]. apply Fx; assumption.
Qed.
Lemma union_normal2 a b : valid a -> rect_decimal a -> valid b -> rect_decimal b -> valid (union_bbox a b) /\ rect_decimal (union_bbox a b).
Proof. intros Va Da Vb Db. destruct (union_normal a b (conj Va Da) (conj Vb Db)) as (_ & N). exact N. Qed.
Lemma rect0_normal : valid rect0 /\ rect_decimal rect0.
Proof. split; [split; cbn; lra|]. repeat split; apply decimal_0. Qed.
Lemma row_bbox_proper cs : (forall c, In (Some c) cs -> valid (bc_bbox c) /\ rect_decimal (bc_bbox c)) -> (exists c, In (Some c) cs /\ rect_empty (bc_bbox c) = false) -> rect_empty (row_bbox cs) = false.
Proof.
  unfold row_bbox. intros V E.
  set (f := fun (r : rect) (c : option bcell) => union_bbox r match c with Some c => bc_bbox c | None => rect0 end).
  assert (G : forall l r, (forall c, In (Some c) l -> valid (bc_bbox c) /\ rect_decimal (bc_bbox c)) -> valid r -> rect_decimal r -> rect_empty r = false \/ (exists c, In (Some c) l /\ rect_empty (bc_bbox c) = false) -> rect_empty (fold_left f l r) = false).
  { induction l as [|c l IH]; intros r Vl Vr Dr H; [destruct H as [H|(c & [] & _)]; exact H|]. cbn [fold_left].
    assert (Nc : valid (match c with Some c => bc_bbox c | None => rect0 end) /\ rect_decimal (match c with Some c => bc_bbox c | None => rect0 end)) by (destruct c as [c|]; [apply Vl; left; reflexivity|apply rect0_normal]).
    destruct Nc as (Vc & Dc). destruct (union_normal2 r _ Vr Dr Vc Dc) as (Vu & Du). apply IH; [intros c' Hc'; apply Vl; right; exact Hc'|exact Vu|exact Du|].
    destruct H as [H|(c' & [->|Hc'] & H)].
    - left. unfold f. apply union_not_empty; try assumption. left. exact H.
    - left. unfold f. apply union_not_empty; try assumption. right. exact H.
    - right. exists c'. auto. }
  apply G; [exact V|apply rect0_normal|apply rect0_normal|right; exact E].
Qed.
Lemma rect_bool_not_empty r : rect_empty r = false -> rect_bool r = true.
Proof.
  intros H. unfold rect_bool. apply Bool.negb_true_iff. destruct (_ && _) eqn:E; [|reflexivity]. exfalso. apply andb_true_iff in E. destruct E as (E & E4). apply andb_true_iff in E. destruct E as (E & E3). apply andb_true_iff in E. destruct E as (E1 & E2).
  apply qeq_iff in E1, E2, E3, E4. unfold rect_empty in H. apply Bool.orb_false_iff in H. destruct H as (H & _). assert (qeq (rx0 r) (rx1 r) = true) by (apply qeq_iff; lra). congruence.
Qed.
Lemma filter_all {A} (p : A -> bool) l : (forall x, In x l -> p x = true) -> filter p l = l.
Proof. induction l as [|x l IH]; intros H; [reflexivity|]. cbn [filter]. rewrite (H x (or_introl eq_refl)). f_equal. apply IH. intros y Hy. apply H. right. exact Hy. Qed.

(** Borders of a parsed table, computed. *)
Definition hits (h : bool) (ref : Q) (v : list shape) : bool := existsb (fun s => qlt (s_from h s) ref && qlt ref (s_to h s)) v.
Lemma hits_spec h ref v : hits h ref v = true <-> exists s, In s v /\ s_from h s < ref /\ ref < s_to h s.
Proof.
  unfold hits. rewrite existsb_exists. split; intros (s & I & H); exists s; (split; [exact I|]).
  - apply andb_true_iff in H. destruct H as (H1 & H2). destruct (qlt_spec (s_from h s) ref); [|discriminate]. destruct (qlt_spec ref (s_to h s)); [|discriminate]. auto.
  - destruct H as (H1 & H2). apply andb_true_iff. split; [destruct (qlt_spec (s_from h s) ref)|destruct (qlt_spec ref (s_to h s))]; tauto.
Qed.
Definition left_borderb (st : structure) (i j : nat) : bool :=
  match nth_error (st_xs st) j, nth_error (intervals (st_ys st)) i with
  | Some x, Some p => match dget x (st_v st) with Some v => hits false (middle p) v | None => false end
  | _, _ => false
  end.
Definition top_borderb (st : structure) (i j : nat) : bool :=
  match nth_error (st_ys st) i, nth_error (intervals (st_xs st)) j with
  | Some y, Some p => match dget y (st_h st) with Some v => hits true (middle p) v | None => false end
  | _, _ => false
  end.
Lemma borderb_ok c w strokes fills st i j : parse_structure c w strokes fills = Parsed st -> (i < nrows st)%nat -> (j < ncols st)%nat ->
  (left_border st i j <-> left_borderb st i j = true) /\ (top_border st i j <-> top_borderb st i j = true).
Proof.
  intros P Hi Hj. destruct (parse_inv _ _ _ _ _ P) as (vb & hb & G & Ex & Ey & Lx & Ly & Ev & Eh & _). destruct (group_h_v_distinct _ _ _ _ _ G) as (Dh & Dv).
  assert (Kx : forall x, In x (st_xs st) -> In x (keys (st_v st))) by (intros x Hx; rewrite Ex in Hx; apply sorted_keys_In; exact Hx).
  assert (Ky : forall x, In x (st_ys st) -> In x (keys (st_h st))) by (intros x Hx; rewrite Ey in Hx; apply sorted_keys_In; exact Hx).
  destruct (lookup_all_nth _ _ _ Ev) as (Lvb & Nv). destruct (lookup_all_nth _ _ _ Eh) as (Lhb & Nh). split.
  - unfold left_borderb. destruct (nth_error (st_xs st) j) as [x|] eqn:X; [|apply nth_error_None in X; unfold ncols in Hj; lia].
    destruct (nth_error (intervals (st_ys st)) i) as [[y0 y1]|] eqn:Y; [|apply nth_error_None in Y; rewrite intervals_length in Y; unfold nrows in Hi; lia].
    pose proof (proj1 (intervals_nth _ _ _) Y) as (Y0 & Y1). cbn [fst snd] in *. destruct (Nv j x X) as (v & Hv & Hd). rewrite Hd. rewrite hits_spec. apply (left_border_iff st vb i j Dv Kx Ev Hi Hj y0 y1 v Y0 Y1 Hv).
  - unfold top_borderb. destruct (nth_error (st_ys st) i) as [x|] eqn:X; [|apply nth_error_None in X; unfold nrows in Hi; lia].
    destruct (nth_error (intervals (st_xs st)) j) as [[y0 y1]|] eqn:Y; [|apply nth_error_None in Y; rewrite intervals_length in Y; unfold ncols in Hj; lia].
    pose proof (proj1 (intervals_nth _ _ _) Y) as (Y0 & Y1). cbn [fst snd] in *. destruct (Nh i x X) as (v & Hv & Hd). rewrite Hd. rewrite hits_spec. apply (top_border_iff st hb i j Dh Ky Eh Hi Hj y0 y1 v Y0 Y1 Hv).
Qed.
Lemma cell_at_nth st i j ce : cell_at st i j ce <-> match nth_error (st_cells st) i with Some r => nth_error r j = Some ce | None => False end.
Proof. unfold cell_at. split; [intros (r & -> & H); exact H|]. destruct (nth_error (st_cells st) i) as [r|]; [|intros []]. intros H. exists r. auto. Qed.

(* ------------------------------------------------------------------ *)
(** * Page layout table *)
Lemma dset_same k v d : dget k d = Some v -> dset k v d = d.
Proof. induction d as [|[q w] t IH]; [discriminate|]. cbn [dget dset]. destruct (qeq q k); intros H; [injection H as ->; reflexivity|]. f_equal. apply IH, H. Qed.
Lemma sort_side_one h s : sort_side h [s] = [s]. Proof. reflexivity. Qed.
Lemma gap_none a b : a == b -> qlt 1 (qabs (a - b)) = false.
Proof. intros E. destruct (qlt_spec 1 (qabs (a - b))) as [L|L]; [exfalso|reflexivity]. rewrite qabs_Qabs' in L. assert (Z : a - b == 0) by lra. rewrite Z in L. change (Qabs 0) with 0 in L. lra. Qed.
Lemma check_outer_id r w h first d s : 0 <= w -> dget (side_current first d) d = Some [s] -> b_at h first r == side_current first d -> b_from h (sh_bbox s) == b_from h r -> b_to h (sh_bbox s) == b_to h r -> check_outer r w h first d = d.
Proof.
  intros Hw E Et Ef Eo. unfold check_outer. fold (side_current first d). rewrite E. cbv zeta. rewrite sort_side_one.
  destruct (qlt_spec w (qabs (b_at h first r - side_current first d))) as [L|L].
  - exfalso. rewrite qabs_Qabs' in L. assert (Z : b_at h first r - side_current first d == 0) by lra. rewrite Z in L. change (Qabs 0) with 0 in L. lra.
  - cbn [missing]. rewrite (gap_none (b_from h r) (b_from h (sh_bbox s))) by (symmetry; exact Ef). rewrite (gap_none (b_to h (sh_bbox s)) (b_to h r)) by exact Eo.
    cbn [app filter]. rewrite sort_side_one. rewrite (dset_same _ _ _ E). apply dset_same. exact E.
Qed.
Lemma sorted_unique : forall l l', StronglySorted Qlt l -> StronglySorted Qlt l' -> Permutation l l' -> l = l'.
Proof.
  induction l as [|x l IH]; intros l' S1 S2 P; [apply Permutation_nil in P; subst; reflexivity|].
  destruct l' as [|y l']; [apply Permutation_sym, Permutation_nil in P; discriminate|]. inversion S1 as [|? ? A1 F1]; subst. inversion S2 as [|? ? A2 F2]; subst. rewrite Forall_forall in F1, F2.
  assert (E : x = y).
  { assert (Hx : In x (y :: l')) by (eapply Permutation_in; [exact P|left; reflexivity]). assert (Hy : In y (x :: l)) by (eapply Permutation_in; [apply Permutation_sym; exact P|left; reflexivity]).
    destruct Hx as [Hx|Hx]; [symmetry; exact Hx|]. destruct Hy as [Hy|Hy]; [exact Hy|]. exfalso. pose proof (F2 x Hx). pose proof (F1 y Hy). lra. }
  subst y. f_equal. apply IH; [assumption|assumption|]. apply Permutation_cons_inv in P. exact P.
Qed.
Lemma sorted_keys_unique d l : StronglySorted Qlt l -> Permutation (keys d) l -> keys_distinct d -> sorted_keys d = l.
Proof.
  intros S1 P D. apply sorted_unique; [apply sorted_keys_sorted, D|exact S1|]. etransitivity; [|exact P]. unfold sorted_keys, sort_key. apply Permutation_sym, py_sort_perm.
Qed.
Lemma side_stroke_h x0 x1 y : side_stroke x0 y x1 y = mkShape KStroke (rround (stroke_rect x0 y x1 y 0)) 0 R_UNDEFINED x0 y x1 y 0 0.
Proof.
  unfold side_stroke, stroke_update_bbox. assert (Z : qeq (area (mkRect x0 y x1 y)) 0 = true) by (apply qeq_iff; unfold area, rwidth, rheight; cbn [rx0 ry0 rx1 ry1]; ring). rewrite Z. reflexivity.
Qed.
Lemma side_stroke_v x y0 y1 : side_stroke x y0 x y1 = mkShape KStroke (rround (stroke_rect x y0 x y1 0)) 0 R_UNDEFINED x y0 x y1 0 0.
Proof.
  unfold side_stroke, stroke_update_bbox. assert (Z : qeq (area (mkRect x y0 x y1)) 0 = true) by (apply qeq_iff; unfold area, rwidth, rheight; cbn [rx0 ry0 rx1 ry1]; ring). rewrite Z. reflexivity.
Qed.
Lemma round1_near x y t : 0 <= t -> t + (1 # 10) < y - x -> t < round1 y - round1 x.
Proof. intros Ht H. pose proof (round1_bound x) as A. pose proof (round1_bound y) as B. lra. Qed.
Lemma qabs_far c a b : c < a - b -> qlt c (qabs (a - b)) = true /\ qlt c (qabs (b - a)) = true.
Proof.
  intros H. split.
  - destruct (qlt_spec c (qabs (a - b))) as [L|L]; [reflexivity|]. exfalso. rewrite qabs_Qabs' in L. pose proof (Qle_Qabs (a - b)). lra.
  - destruct (qlt_spec c (qabs (b - a))) as [L|L]; [reflexivity|]. exfalso. rewrite qabs_Qabs', Qabs_Qminus in L. pose proof (Qle_Qabs (a - b)). lra.
Qed.

Lemma qmin_self x : qmin x x = x. Proof. unfold qmin. destruct (qlt x x); reflexivity. Qed.
Lemma qmax_self x : qmax x x = x. Proof. unfold qmax. destruct (qlt x x); reflexivity. Qed.
Lemma zero_abs a : qlt (qabs (a - a)) (1 # 1000) = true.
Proof. destruct (qlt_spec (qabs (a - a)) (1 # 1000)) as [L|L]; [reflexivity|]. exfalso. apply L. rewrite qabs_Qabs'. assert (Z : a - a == 0) by lra. rewrite Z. reflexivity. Qed.
Lemma far_abs a b : 1 < b - a -> qlt (qabs (a - b)) (1 # 1000) = false.
Proof. intros H. destruct (qlt_spec (qabs (a - b)) (1 # 1000)) as [L|L]; [|reflexivity]. exfalso. rewrite qabs_Qabs', Qabs_Qminus in L. pose proof (Qle_Qabs (b - a)). lra. Qed.
Lemma qeq_neq a b : ~ a == b -> qeq a b = false.
Proof. intros H. destruct (qeq a b) eqn:E; [|reflexivity]. apply qeq_iff in E. contradiction. Qed.
Lemma qmin_l a b : a < b -> qmin a b = a. Proof. intros H. unfold qmin. destruct (qlt_spec b a); [lra|reflexivity]. Qed.
Lemma qmin_r a b : b < a -> qmin a b = b. Proof. intros H. unfold qmin. destruct (qlt_spec b a); [reflexivity|lra]. Qed.
Lemma qmax_l a b : b < a -> qmax a b = a. Proof. intros H. unfold qmax. destruct (qlt_spec a b); [lra|reflexivity]. Qed.
Lemma qmax_r a b : a < b -> qmax a b = b. Proof. intros H. unfold qmax. destruct (qlt_spec a b); [reflexivity|lra]. Qed.
Lemma qeq_same a : qeq a a = true. Proof. apply qeq_iff. reflexivity. Qed.
Definition five (m0 X m1 n0 n1 : Q) : list shape := [side_stroke m0 n0 m1 n0; side_stroke m0 n1 m1 n1; side_stroke m0 n0 m0 n1; side_stroke m1 n0 m1 n1; side_stroke X n0 X n1].
Lemma five_group m0 X m1 n0 n1 : 21 # 10 < X - m0 -> 21 # 10 < m1 - X -> 21 # 10 < n1 - n0 ->
  group_h_v 2 6 (five m0 X m1 n0 n1) =
  Some ([(round1 n0, [side_stroke m0 n0 m1 n0]); (round1 n1, [side_stroke m0 n1 m1 n1])],
        [(round1 m0, [side_stroke m0 n0 m0 n1]); (round1 m1, [side_stroke m1 n0 m1 n1]); (round1 X, [side_stroke X n0 X n1])]).
Proof.
  intros H1 H2 H3. assert (F1 : 2 < round1 X - round1 m0) by (apply round1_near; lra). assert (F2 : 2 < round1 m1 - round1 X) by (apply round1_near; lra).
  assert (F3 : 2 < round1 n1 - round1 n0) by (apply round1_near; lra). assert (F4 : 2 < round1 m1 - round1 m0) by lra.
  unfold group_h_v, five.
  assert (Eh : h_part [side_stroke m0 n0 m1 n0; side_stroke m0 n1 m1 n1; side_stroke m0 n0 m0 n1; side_stroke m1 n0 m1 n1; side_stroke X n0 X n1] = [side_stroke m0 n0 m1 n0; side_stroke m0 n1 m1 n1]).
  { unfold h_part. rewrite !side_stroke_h, !side_stroke_v. cbn [filter]. unfold horizontal. cbn [sh_y0 sh_y1]. rewrite !zero_abs, !far_abs by lra. reflexivity. }
  assert (Ev : v_part [side_stroke m0 n0 m1 n0; side_stroke m0 n1 m1 n1; side_stroke m0 n0 m0 n1; side_stroke m1 n0 m1 n1; side_stroke X n0 X n1] = [side_stroke m0 n0 m0 n1; side_stroke m1 n0 m1 n1; side_stroke X n0 X n1]).
  { unfold v_part. rewrite !side_stroke_h, !side_stroke_v. cbn [filter]. unfold horizontal, vertical. cbn [sh_y0 sh_y1 sh_x0 sh_x1]. rewrite !zero_abs, !far_abs by lra. reflexivity. }
  rewrite Eh, Ev.
  assert (R : table_region [side_stroke m0 n0 m1 n0; side_stroke m0 n1 m1 n1] [side_stroke m0 n0 m0 n1; side_stroke m1 n0 m1 n1; side_stroke X n0 X n1] = rround (mkRect m0 n0 m1 n1)).
  { unfold table_region. rewrite !side_stroke_h, !side_stroke_v. cbn [map sh_x0 sh_x1 sh_y0 sh_y1 list_min list_max fold_left]. rewrite !qmin_self, !qmax_self. reflexivity. }
  rewrite R.
  assert (Gh : group_dir true 2 [side_stroke m0 n0 m1 n0; side_stroke m0 n1 m1 n1] = [(round1 n0, [side_stroke m0 n0 m1 n0]); (round1 n1, [side_stroke m0 n1 m1 n1])]).
  { unfold group_dir. cbn [fold_left]. unfold put_stroke. rewrite !side_stroke_h. cbn [s_at sh_y0 near_key dset]. rewrite (proj1 (qabs_far 2 _ _ F3)). cbn [near_key dset]. rewrite qeq_neq by lra. reflexivity. }
  assert (Gv : group_dir false 2 [side_stroke m0 n0 m0 n1; side_stroke m1 n0 m1 n1; side_stroke X n0 X n1] = [(round1 m0, [side_stroke m0 n0 m0 n1]); (round1 m1, [side_stroke m1 n0 m1 n1]); (round1 X, [side_stroke X n0 X n1])]).
  { unfold group_dir. cbn [fold_left]. unfold put_stroke. rewrite !side_stroke_v. cbn [s_at sh_x0 near_key dset]. rewrite (proj1 (qabs_far 2 _ _ F4)). cbn [near_key dset]. rewrite (qeq_neq (round1 m0) (round1 m1)) by lra.
    cbn [near_key dset]. rewrite (proj1 (qabs_far 2 _ _ F1)), (proj2 (qabs_far 2 _ _ F2)). cbn [near_key dset]. rewrite (qeq_neq (round1 m0) (round1 X)), (qeq_neq (round1 m1) (round1 X)) by lra. reflexivity. }
  rewrite Gh, Gv.
  assert (Z0 : forall a, a - 0 / 2 == a) by (intros a; change (0 / 2) with (0 # 2); assert (0 # 2 == 0) by reflexivity; lra).
  assert (Z1 : forall a, a + 0 / 2 == a) by (intros a; change (0 / 2) with (0 # 2); assert (0 # 2 == 0) by reflexivity; lra).
  assert (L1 : qlt (round1 n1) (round1 n0) = false) by (destruct (qlt_spec (round1 n1) (round1 n0)); [lra|reflexivity]).
  f_equal. f_equal.
  - assert (K1 : list_min (keys [(round1 n0, [side_stroke m0 n0 m1 n0]); (round1 n1, [side_stroke m0 n1 m1 n1])]) = round1 n0) by (cbn [keys map fst list_min fold_left]; apply qmin_l; lra).
    assert (K2 : list_max (keys [(round1 n0, [side_stroke m0 n0 m1 n0]); (round1 n1, [side_stroke m0 n1 m1 n1])]) = round1 n1) by (cbn [keys map fst list_max fold_left]; apply qmax_r; lra).
    rewrite (check_outer_id _ 6 true true _ (side_stroke m0 n0 m1 n0)); [rewrite (check_outer_id _ 6 true false _ (side_stroke m0 n1 m1 n1)); [reflexivity|lra|..]|lra|..];
      unfold side_current; rewrite ?K1, ?K2; cbn [dget]; rewrite ?qeq_same, ?(qeq_neq (round1 n0) (round1 n1)) by lra; rewrite ?side_stroke_h; try reflexivity;
      cbn [sh_bbox b_from b_to b_at rround stroke_rect rx0 rx1 ry0 ry1]; reflexivity || (rewrite (round1_comp _ _ (Z0 _)); reflexivity) || (rewrite (round1_comp _ _ (Z1 _)); reflexivity).
  - assert (K1 : list_min (keys [(round1 m0, [side_stroke m0 n0 m0 n1]); (round1 m1, [side_stroke m1 n0 m1 n1]); (round1 X, [side_stroke X n0 X n1])]) = round1 m0) by (cbn [keys map fst list_min fold_left]; rewrite (qmin_l (round1 m0) (round1 m1)) by lra; apply qmin_l; lra).
    assert (K2 : list_max (keys [(round1 m0, [side_stroke m0 n0 m0 n1]); (round1 m1, [side_stroke m1 n0 m1 n1]); (round1 X, [side_stroke X n0 X n1])]) = round1 m1) by (cbn [keys map fst list_max fold_left]; rewrite (qmax_r (round1 m0) (round1 m1)) by lra; apply qmax_l; lra).
    rewrite (check_outer_id _ 6 false true _ (side_stroke m0 n0 m0 n1)); [rewrite (check_outer_id _ 6 false false _ (side_stroke m1 n0 m1 n1)); [reflexivity|lra|..]|lra|..];
      unfold side_current; rewrite ?K1, ?K2; cbn [dget]; rewrite ?qeq_same, ?(qeq_neq (round1 m0) (round1 m1)) by lra; rewrite ?side_stroke_v; try reflexivity;
      cbn [sh_bbox b_from b_to b_at rround stroke_rect rx0 rx1 ry0 ry1]; reflexivity || (rewrite (round1_comp _ _ (Z0 _)); reflexivity) || (rewrite (round1_comp _ _ (Z1 _)); reflexivity).
Qed.
(** The table parsed from the five strokes: one row of two cells. *)
Lemma five_parsed m0 X m1 n0 n1 : 21 # 10 < X - m0 -> 21 # 10 < m1 - X -> 21 # 10 < n1 - n0 ->
  exists st ce0 ce1, parse_structure 2 6 (five m0 X m1 n0 n1) [] = Parsed st /\ st_xs st = [round1 m0; round1 X; round1 m1] /\ st_ys st = [round1 n0; round1 n1] /\
    st_cells st = [[ce0; ce1]] /\ ce_rows ce0 = 1%nat /\ ce_cols ce0 = 1%nat /\ ce_rows ce1 = 1%nat /\ ce_cols ce1 = 1%nat.
Proof.
  intros H1 H2 H3. assert (F1 : 2 < round1 X - round1 m0) by (apply round1_near; lra). assert (F2 : 2 < round1 m1 - round1 X) by (apply round1_near; lra).
  assert (F3 : 2 < round1 n1 - round1 n0) by (apply round1_near; lra).
  pose proof (five_group m0 X m1 n0 n1 H1 H2 H3) as G. pose proof (parse_total 2 6 (five m0 X m1 n0 n1) []) as T.
  destruct (parse_structure 2 6 (five m0 X m1 n0 n1) []) as [| |st] eqn:P.
  - exfalso. rewrite G in T. cbn [length] in T. lia.
  - exfalso. destruct T as (hd & vd & G' & _ & L). rewrite G in G'. injection G' as <- <-. cbn [length] in L. lia.
  - exists st. destruct (parse_inv _ _ _ _ _ P) as (vb & hb & G' & Ex & Ey & _ & _ & _ & _ & Lc & Lr & A). rewrite G in G'. injection G' as Eh Ev. symmetry in Eh, Ev.
    destruct (group_h_v_distinct _ _ _ _ _ G) as (Dh & Dv). rewrite Ev in Ex. rewrite Eh in Ey.
    assert (Sx : st_xs st = [round1 m0; round1 X; round1 m1]).
    { rewrite Ex. apply sorted_keys_unique; [|cbn [keys map fst]; apply perm_skip, perm_swap|exact Dv]. repeat constructor; lra. }
    assert (Sy : st_ys st = [round1 n0; round1 n1]).
    { rewrite Ey. apply sorted_keys_unique; [|cbn [keys map fst]; reflexivity|exact Dh]. repeat constructor; lra. }
    assert (Nc : ncols st = 2%nat) by (unfold ncols; rewrite Sx; reflexivity). assert (Nr : nrows st = 1%nat) by (unfold nrows; rewrite Sy; reflexivity).
    rewrite Nr in Lc. destruct (st_cells st) as [|row [|]] eqn:Es; try (cbn [length] in Lc; lia). assert (L2 : length row = 2%nat) by (rewrite <- Nc; apply Lr; left; reflexivity).
    destruct row as [|ce0 [|ce1 [|]]]; try (cbn [length] in L2; lia). exists ce0, ce1. split; [reflexivity|]. split; [exact Sx|]. split; [exact Sy|]. split; [reflexivity|].
    assert (C0 : cell_at st 0 0 ce0) by (exists [ce0; ce1]; rewrite Es; split; reflexivity). assert (C1 : cell_at st 0 1 ce1) by (exists [ce0; ce1]; rewrite Es; split; reflexivity).
    assert (Oh : ordered_strokes true (st_h st)) by (rewrite Eh; intros k v [Hk|[Hk|[]]]; injection Hk as <- <-; repeat constructor).
    assert (Ov : ordered_strokes false (st_v st)) by (rewrite Ev; intros k v [Hk|[Hk|[Hk|[]]]]; injection Hk as <- <-; repeat constructor).
    pose proof (round1_bound n0) as Bn0. pose proof (round1_bound n1) as Bn1. pose proof (round1_bound m0) as Bm0. pose proof (round1_bound m1) as Bm1. pose proof (round1_bound X) as BX.
    assert (HalfL : forall a b, (a + b) / 2 == (1 # 2) * (a + b)) by (intros; field).
    assert (Lb : forall j, (j < 2)%nat -> left_border st 0 j).
    { intros j Hj. unfold left_border. rewrite Sx, Sy, Ev. destruct j as [|[|j]]; [| |lia].
      - exists (round1 m0), (round1 n0), (round1 n1), [side_stroke m0 n0 m0 n1], (side_stroke m0 n0 m0 n1). repeat (split; [reflexivity || (left; reflexivity)|]). rewrite side_stroke_v. cbn [sh_y0 sh_y1]. rewrite HalfL. lra.
      - exists (round1 X), (round1 n0), (round1 n1), [side_stroke X n0 X n1], (side_stroke X n0 X n1). repeat (split; [reflexivity || (left; reflexivity) || (right; right; left; reflexivity)|]). rewrite side_stroke_v. cbn [sh_y0 sh_y1]. rewrite HalfL. lra. }
    assert (Tb : forall j, (j < 2)%nat -> top_border st 0 j).
    { intros j Hj. unfold top_border. rewrite Sx, Sy, Eh. destruct j as [|[|j]]; [| |lia].
      - exists (round1 n0), (round1 m0), (round1 X), [side_stroke m0 n0 m1 n0], (side_stroke m0 n0 m1 n0). repeat (split; [reflexivity || (left; reflexivity)|]). rewrite side_stroke_h. cbn [sh_x0 sh_x1]. rewrite HalfL. lra.
      - exists (round1 n0), (round1 X), (round1 m1), [side_stroke m0 n0 m1 n0], (side_stroke m0 n0 m1 n0). repeat (split; [reflexivity || (left; reflexivity)|]). rewrite side_stroke_h. cbn [sh_x0 sh_x1]. rewrite HalfL. lra. }
    destruct (counts _ _ _ _ _ _ _ _ P Oh Ov C0) as (A0 & B0). destruct (counts _ _ _ _ _ _ _ _ P Oh Ov C1) as (A1 & B1). rewrite Nc in A0, A1. rewrite Nr in B0, B1. unfold run_length in *.
    assert (One : forall Pr : nat -> Prop, forall len j n, Pr j -> (j < len)%nat -> (forall k, (j < k < len)%nat -> Pr k) -> ((~ Pr j /\ n = 0%nat) \/ (Pr j /\ (1 <= n)%nat /\ (j + n <= len)%nat /\ (forall k, (j < k < j + n)%nat -> ~ Pr k) /\ ((j + n < len)%nat -> Pr (j + n)%nat))) -> n = 1%nat).
    { intros Pr len j n Hp Hl Hk [(N & _)|(_ & N1 & N2 & N3 & _)]; [contradiction|]. destruct n as [|[|n]]; [lia|reflexivity|]. exfalso. apply (N3 (S j)); [lia|]. apply Hk. lia. }
    split; [apply (One (fun k => top_border st k 0%nat) 1%nat 0%nat); [apply Tb; lia|lia|intros k Hk; lia|exact B0]|].
    split; [apply (One (fun k => left_border st 0 k) 2%nat 0%nat); [apply Lb; lia|lia|intros k Hk; apply Lb; lia|exact A0]|].
    split; [apply (One (fun k => top_border st k 1%nat) 1%nat 0%nat); [apply Tb; lia|lia|intros k Hk; lia|exact B1]|].
    apply (One (fun k => left_border st 0 k) 2%nat 1%nat); [apply Lb; lia|lia|intros k Hk; apply Lb; lia|exact A1].
Qed.

Lemma boxes_cover l : l <> [] -> (forall e, In e l -> proper e /\ rect_decimal e) -> let u := boxes_bbox l in
  proper u /\ rect_decimal u /\ (forall e, In e l -> Rect.covers u e) /\ (forall c, (forall e, In e l -> Rect.covers c e) -> Rect.covers c u).
Proof.
  intros N H. cbv zeta.
  assert (G : forall l r, (forall e, In e l -> proper e /\ rect_decimal e) -> proper r -> rect_decimal r -> let u := fold_left runion l r in
    proper u /\ rect_decimal u /\ Rect.covers u r /\ (forall e, In e l -> Rect.covers u e) /\ (forall c, Rect.covers c r -> (forall e, In e l -> Rect.covers c e) -> Rect.covers c u)).
  { clear. induction l as [|e l IH]; intros r H Pr Dr; cbv zeta; cbn [fold_left].
    - split; [exact Pr|]. split; [exact Dr|]. split; [apply covers_refl|]. split; [intros e []|auto].
    - destruct (H e (or_introl eq_refl)) as (Pe & De). destruct (runion_covers r e Pr Pe) as (U1 & U2 & U3 & U4).
      destruct (IH (runion r e)) as (I1 & I2 & I3 & I4 & I5); [intros x Hx; apply H; right; exact Hx|exact U3|apply runion_decimal; assumption|].
      split; [exact I1|]. split; [exact I2|]. split; [eapply covers_trans; eassumption|]. split.
      + intros x [<-|Hx]; [eapply covers_trans; eassumption|apply I4; exact Hx].
      + intros c Hc Hcs. apply I5; [apply U4; [exact Hc|apply Hcs; left; reflexivity]|intros x Hx; apply Hcs; right; exact Hx]. }
  destruct l as [|e l]; [contradiction|]. destruct (H e (or_introl eq_refl)) as (Pe & De). unfold boxes_bbox. cbn [fold_left].
  assert (E0 : runion rect0 e = e) by (unfold runion; rewrite (proper_nonempty _ Pe); reflexivity). rewrite E0.
  destruct (G l e) as (I1 & I2 & I3 & I4 & I5); [intros x Hx; apply H; right; exact Hx|exact Pe|exact De|].
  pose proof (rround_fixed _ I2) as Rq. split; [eapply proper_req; [apply req_sym; exact Rq|exact I1]|]. split; [apply rround_decimal|]. split.
  - intros x [<-|Hx]; (eapply covers_req_l; [apply req_sym; exact Rq|]); [exact I3|apply I4; exact Hx].
  - intros c Hc. eapply covers_req_r; [apply req_sym; exact Rq|]. apply I5; [apply Hc; left; reflexivity|intros x Hx; apply Hc; right; exact Hx].
Qed.
Lemma column_In page elems e : In e (column_elements page elems) <-> In e elems /\ in_column page e.
Proof.
  unfold column_elements, in_column, in_left, in_right. rewrite filter_In. change (page_center page) with (center page). rewrite Bool.orb_true_iff.
  destruct (qlt_spec (rx1 e) (center page)), (qlt_spec (center page) (rx0 e)); intuition congruence.
Qed.
Lemma span_In page elems e : In e (span_elements page elems) <-> In e elems /\ spanning page e.
Proof.
  unfold span_elements, spanning. rewrite filter_In. change (page_center page) with (center page). rewrite andb_true_iff.
  destruct (qle_spec (center page) (rx1 e)), (qle_spec (rx0 e) (center page)); intuition (try congruence; try lra).
Qed.
(** The columns as a whole: v0 and v1 are attained. *)
Lemma boxes_attained l : l <> [] -> (forall e, In e l -> proper e /\ rect_decimal e) -> let u := boxes_bbox l in
  (exists e, In e l /\ ry0 u == ry0 e) /\ (exists e, In e l /\ ry1 u == ry1 e) /\ (exists e, In e l /\ rx0 u == rx0 e) /\ (exists e, In e l /\ rx1 u == rx1 e).
Proof.
  intros N H. destruct (boxes_cover l N H) as (P & _ & C1 & C2). cbv zeta in *. set (u := boxes_bbox l) in *.
  assert (Mn : forall f : rect -> Q, exists e, In e l /\ forall x, In x l -> f e <= f x).
  { intros f. clear - N. induction l as [|a l IH]; [contradiction|]. destruct l as [|b l]; [exists a; split; [left; reflexivity|intros x [<-|[]]; lra]|].
    destruct IH as (e & He & M); [discriminate|]. destruct (Qlt_le_dec (f a) (f e)) as [L|L].
    - exists a. split; [left; reflexivity|]. intros x [<-|Hx]; [lra|]. specialize (M x Hx). lra.
    - exists e. split; [right; exact He|]. intros x [<-|Hx]; [exact L|apply M; exact Hx]. }
  destruct (Mn ry0) as (a & Ia & Ma). destruct (Mn (fun r => - ry1 r)) as (b & Ib & Mb). destruct (Mn rx0) as (c & Ic & Mc). destruct (Mn (fun r => - rx1 r)) as (d & Id & Md). cbv beta in *.
  assert (Cm : Rect.covers (mkRect (rx0 c) (ry0 a) (rx1 d) (ry1 b)) u).
  { apply C2. intros e He. unfold Rect.covers. cbn [rx0 rx1 ry0 ry1]. specialize (Ma e He). specialize (Mb e He). specialize (Mc e He). specialize (Md e He). repeat split; lra. }
  unfold Rect.covers in Cm. cbn [rx0 rx1 ry0 ry1] in Cm. destruct Cm as (Q1 & Q2 & Q3 & Q4).
  split; [exists a|split; [exists b|split; [exists c|exists d]]]; (split; [assumption|]); [destruct (C1 a Ia) as (? & ? & ? & ?)|destruct (C1 b Ib) as (? & ? & ? & ?)|destruct (C1 c Ic) as (? & ? & ? & ?)|destruct (C1 d Id) as (? & ? & ? & ?)]; lra.
Qed.
Lemma span_free page elems : (forall e, In e elems -> proper e /\ rect_decimal e) -> (exists e, In e elems /\ in_column page e) ->
  let u := boxes_bbox (column_elements page elems) in
  (forallb (fun e => qlt (ry1 e) (ry0 u) || qlt (ry1 u) (ry0 e)) (span_elements page elems) = true <->
   forall e, In e elems -> spanning page e -> above_columns page elems e \/ below_columns page elems e).
Proof.
  intros H (e0 & I0 & C0). cbv zeta. set (l := column_elements page elems).
  assert (N : l <> []) by (intros E; assert (X : In e0 l) by (apply column_In; auto); rewrite E in X; destruct X).
  assert (Hl : forall e, In e l -> proper e /\ rect_decimal e) by (intros e He; apply H; apply column_In in He; tauto).
  destruct (boxes_cover l N Hl) as (_ & _ & Cv & _). destruct (boxes_attained l N Hl) as ((a & Ia & Ea) & (b & Ib & Eb) & _). cbv zeta in *. set (u := boxes_bbox l) in *.
  rewrite forallb_forall. split.
  - intros F e He Se. specialize (F e (proj2 (span_In _ _ _) (conj He Se))). apply Bool.orb_true_iff in F. destruct F as [F|F].
    + left. intros c Ic Cc. destruct (qlt_spec (ry1 e) (ry0 u)); [|discriminate]. destruct (Cv c (proj2 (column_In _ _ _) (conj Ic Cc))) as (_ & X & _). lra.
    + right. intros c Ic Cc. destruct (qlt_spec (ry1 u) (ry0 e)); [|discriminate]. destruct (Cv c (proj2 (column_In _ _ _) (conj Ic Cc))) as (_ & _ & _ & X). lra.
  - intros F e He. apply span_In in He. destruct He as (He & Se). apply column_In in Ia, Ib. apply Bool.orb_true_iff. destruct (F e He Se) as [A|A].
    + left. specialize (A a (proj1 Ia) (proj2 Ia)). destruct (qlt_spec (ry1 e) (ry0 u)); [reflexivity|lra].
    + right. specialize (A b (proj1 Ib) (proj2 Ib)). destruct (qlt_spec (ry1 u) (ry0 e)); [reflexivity|lra].
Qed.
