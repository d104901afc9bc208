From Verif Require Export DrawSpec.
From Coq Require Import Lia.
Open Scope nat_scope.

Lemma codes_eqb_iff a b : codes_eqb a b = true <-> a = b.
Proof. unfold codes_eqb. destruct (list_eq_dec Z.eq_dec a b); split; intros H; auto; discriminate. Qed.
Lemma target_eqb_iff a b : target_eqb a b = true <-> a = b.
Proof.
  destruct a, b; cbn [target_eqb]; try (split; intros H; [discriminate H|congruence]).
  - rewrite Nat.eqb_eq. split; congruence.
  - rewrite Nat.eqb_eq. split; congruence.
  - rewrite codes_eqb_iff. split; congruence.
Qed.
Lemma first_free_some fuel : forall n used k, first_free fuel n used = Some k -> ~ In k used /\ n <= k.
Proof.
  induction fuel as [|f IH]; intros n used k; cbn [first_free]; [discriminate|].
  destruct (existsb (Nat.eqb n) used) eqn:E; intros H.
  - destruct (IH _ _ _ H). split; [assumption|lia].
  - injection H as <-. split; [|lia]. intros I. assert (existsb (Nat.eqb n) used = true) as X; [|congruence].
    apply existsb_exists. exists n. split; [exact I|apply Nat.eqb_refl].
Qed.
Lemma first_free_none fuel : forall n used, first_free fuel n used = None -> incl (seq n fuel) used.
Proof.
  induction fuel as [|f IH]; intros n used; cbn [first_free seq]; [intros _ x []|].
  destruct (existsb (Nat.eqb n) used) eqn:E; [|discriminate]. intros H x [<-|I]; [|exact (IH _ _ H x I)].
  apply existsb_exists in E. destruct E as (y & Iy & Ey). apply Nat.eqb_eq in Ey. subst y. exact Iy.
Qed.
Lemma next_rid_some rels : exists n, next_rid rels = Some n /\ ~ In n (map fst rels) /\ 1 <= n.
Proof.
  unfold next_rid. destruct (first_free _ _ _) as [n|] eqn:E.
  - exists n. split; [reflexivity|]. exact (first_free_some _ _ _ _ E).
  - apply first_free_none in E. pose proof (NoDup_incl_length (seq_NoDup (S (List.length rels)) 1) E) as L.
    rewrite seq_length, map_length in L. lia.
Qed.
Lemma next_part_new parts : ~ In (next_part parts) (map fst parts).
Proof.
  unfold next_part. destruct (first_free _ _ _) as [n|] eqn:E; [exact (proj1 (first_free_some _ _ _ _ E))|].
  apply first_free_none in E. intros I. assert (incl (seq 1 (S (List.length parts))) (map fst parts)) as J.
  { intros x Ix. rewrite seq_S in Ix. apply in_app_or in Ix. destruct Ix as [Ix|[<-|[]]]; [exact (E x Ix)|exact I]. }
  pose proof (NoDup_incl_length (seq_NoDup _ _) J) as L. rewrite seq_length, map_length in L. lia.
Qed.
Lemma next_id_new pk : 1 <= next_id pk /\ ~ In (next_id pk) (map dr_id (pk_drawings pk)).
Proof.
  unfold next_id. destruct (pk_drawings pk) as [|d ds]; [split; [lia|intros []]|]. split; [lia|]. intros I.
  pose proof (proj1 (list_max_le (map dr_id (d :: ds)) (list_max (map dr_id (d :: ds)))) (le_n _)) as F. rewrite Forall_forall in F. exact (Nat.nle_succ_diag_l _ (F _ I)).
Qed.
Lemma NoDup_snoc {A} (l : list A) x : NoDup l -> ~ In x l -> NoDup (l ++ [x]).
Proof. intros N I. apply NoDup_rev in N. rewrite <- (rev_involutive (l ++ [x])). apply NoDup_rev. rewrite rev_app_distr. cbn. constructor; [rewrite <- in_rev; exact I|exact N]. Qed.

(** [b] keeps everything of [a]. *)
Definition keeps (a b : package) : Prop := incl (pk_rels a) (pk_rels b) /\ incl (pk_parts a) (pk_parts b).
Lemma keeps_refl a : keeps a a. Proof. split; apply incl_refl. Qed.
Lemma keeps_trans a b c : keeps a b -> keeps b c -> keeps a c.
Proof. intros (A & B) (C & D). split; eapply incl_tran; eassumption. Qed.
Lemma shows_keeps a b d x : keeps a b -> shows a d x -> shows b d x.
Proof. intros (K & L) (k & I & J). exists k. split; [apply K|apply L]; assumption. Qed.
Lemma leads_keeps a b d x : keeps a b -> leads a d x -> leads b d x.
Proof. intros (K & L) I. apply K, I. Qed.

Lemma relate_spec t pk : sound pk -> (forall k, t = T_part k -> exists b, In (k, b) (pk_parts pk)) ->
  exists r pk', relate t pk = Some (r, pk') /\ sound pk' /\ keeps pk pk' /\ In (r, t) (pk_rels pk') /\ pk_parts pk' = pk_parts pk /\
    pk_drawings pk' = pk_drawings pk /\ pk_links pk' = pk_links pk.
Proof.
  intros S T. unfold relate. destruct (find _ _) as [[r t']|] eqn:F.
  - apply find_some in F. destruct F as (I & E). cbn [snd] in E. apply target_eqb_iff in E. subst t'.
    exists r, pk. repeat (split; [auto using keeps_refl|]); auto.
  - destruct (next_rid_some (pk_rels pk)) as (n & -> & N & P). eexists n, _. split; [reflexivity|].
    assert (keeps pk (mkPackage (pk_rels pk ++ [(n, t)]) (pk_parts pk) (pk_drawings pk) (pk_links pk))) as K.
    { split; cbn [pk_rels pk_parts]; [apply incl_appl, incl_refl|apply incl_refl]. }
    split; [|split; [exact K|]; cbn [pk_rels pk_parts pk_drawings pk_links]; split; [apply in_or_app; right; left; reflexivity|auto]].
    destruct S as [S1 S2 S3 S4 S5 S6 S7 S8]. constructor; cbn [pk_rels pk_parts pk_drawings pk_links]; auto.
    + rewrite map_app. apply NoDup_snoc; assumption.
    + intros m k I. apply in_app_or in I. destruct I as [I|[I|[]]]; [exact (S4 m k I)|]. injection I as _ E. exact (T k E).
    + intros d I. destruct (S7 d I) as (b & B). exists b. exact (shows_keeps _ _ _ _ K B).
    + intros d I. destruct (S8 d I) as (b & B). exists b. exact (leads_keeps _ _ _ _ K B).
Qed.
Lemma part_spec b pk : sound pk -> exists k pk', get_or_add_part b pk = (k, pk') /\ sound pk' /\ keeps pk pk' /\ In (k, b) (pk_parts pk') /\
  (forall x, In x (pk_parts pk') -> In x (pk_parts pk) \/ x = (k, b)) /\
  pk_rels pk' = pk_rels pk /\ pk_drawings pk' = pk_drawings pk /\ pk_links pk' = pk_links pk.
Proof.
  intros S. unfold get_or_add_part. destruct (find _ _) as [[k b']|] eqn:F.
  - apply find_some in F. destruct F as (I & E). cbn [snd] in E. apply codes_eqb_iff in E. subst b'.
    exists k, pk. split; [reflexivity|]. split; [exact S|]. split; [apply keeps_refl|]. auto.
  - cbv zeta. pose proof (next_part_new (pk_parts pk)) as N. set (k := next_part (pk_parts pk)) in *. eexists k, _. split; [reflexivity|].
    assert (keeps pk (mkPackage (pk_rels pk) (pk_parts pk ++ [(k, b)]) (pk_drawings pk) (pk_links pk))) as K.
    { split; cbn [pk_rels pk_parts]; [apply incl_refl|apply incl_appl, incl_refl]. }
    split; [|split; [exact K|]; cbn [pk_rels pk_parts pk_drawings pk_links]; split; [apply in_or_app; right; left; reflexivity|]; split; [|auto]].
    + destruct S as [S1 S2 S3 S4 S5 S6 S7 S8]. constructor; cbn [pk_rels pk_parts pk_drawings pk_links]; auto.
      * rewrite map_app. apply NoDup_snoc; assumption.
      * rewrite map_app. apply NoDup_snoc; [assumption|]. intros I. apply in_map_iff in I. destruct I as ((j & c) & E & I). cbn [snd] in E. subst c.
        pose proof (find_none _ _ F _ I) as X. cbn [snd] in X. rewrite (proj2 (codes_eqb_iff b b) eq_refl) in X. discriminate X.
      * intros m j I. destruct (S4 m j I) as (c & J). exists c. apply in_or_app. left. exact J.
      * intros d I. destruct (S7 d I) as (c & J). exists c. exact (shows_keeps _ _ _ _ K J).
    + intros x I. apply in_app_or in I. destruct I as [I|[<-|[]]]; auto.
Qed.

Section Write.
Variable recognise : bytes -> seen.
(** Whether a picture of these proportions can be written this wide. *)
Definition writable (w h : Z) (width : Q) : Prop :=
  w <> 0%Z /\ coordinate (WordModel.pt width) = true /\ coordinate (round_half_even (inject_Z h * (inject_Z (WordModel.pt width) / inject_Z w))) = true.
Lemma put_spec b w h width place pk : sound pk -> exists pk' o ds, put_picture b w h width place pk = (pk', o) /\ sound pk' /\ keeps pk pk' /\
  pk_links pk' = pk_links pk /\ pk_drawings pk' = pk_drawings pk ++ ds /\ (forall k c, In (k, c) (pk_parts pk') -> In (k, c) (pk_parts pk) \/ c = b) /\
  ((o = Failed /\ ~ writable w h width /\ ds = []) \/
   (o = Done /\ writable w h width /\ exists d, ds = [d] /\ shows pk' d b /\ dr_width d = WordModel.pt width /\
     dr_height d = round_half_even (inject_Z h * (inject_Z (WordModel.pt width) / inject_Z w)) /\
     dr_place d = option_map (fun p => (WordModel.pt (fst p), WordModel.pt (snd p))) place)).
Proof.
  intros S. unfold put_picture, writable. destruct (part_spec b pk S) as (k & pk1 & -> & S1 & K1 & I1 & N1 & R1 & D1 & L1).
  destruct (relate_spec (T_part k) pk1 S1) as (r & pk2 & -> & S2 & K2 & I2 & P2 & D2 & L2).
  { intros k' E. injection E as <-. exists b. exact I1. }
  assert (forall j c, In (j, c) (pk_parts pk2) -> In (j, c) (pk_parts pk) \/ c = b) as N2.
  { intros j c I. rewrite P2 in I. destruct (N1 _ I) as [J|J]; [left; exact J|right; congruence]. }
  assert (keeps pk pk2) as K by (eapply keeps_trans; eassumption).
  destruct (w =? 0)%Z eqn:W.
  { exists pk2, Failed, []. rewrite app_nil_r, D2, D1, L2, L1. apply Z.eqb_eq in W. split; [reflexivity|]. split; [exact S2|]. split; [exact K|]. split; [reflexivity|].
    split; [reflexivity|]. split; [exact N2|]. left. split; [reflexivity|]. split; [|reflexivity]. intros (X & _). exact (X W). }
  apply Z.eqb_neq in W. cbv zeta. destruct (coordinate (WordModel.pt width)) eqn:C1; [destruct (coordinate (round_half_even _)) eqn:C2|]; cbn [andb].
  2:{ exists pk2, Failed, []. rewrite app_nil_r, D2, D1, L2, L1. repeat (split; [auto|]). left. split; [reflexivity|]. split; [|reflexivity]. intros (_ & _ & X). congruence. }
  2:{ exists pk2, Failed, []. rewrite app_nil_r, D2, D1, L2, L1. repeat (split; [auto|]). left. split; [reflexivity|]. split; [|reflexivity]. intros (_ & X & _). congruence. }
  eexists _, Done, [_]. split; [reflexivity|]. cbn [pk_rels pk_parts pk_drawings pk_links].
  rewrite D2, D1, L2, L1. pose proof (next_id_new pk2) as (P & NI).
  assert (keeps pk2 (mkPackage (pk_rels pk2) (pk_parts pk2) (pk_drawings pk2 ++ [mkDrawing (next_id pk2) r (WordModel.pt width)
     (round_half_even (inject_Z h * (inject_Z (WordModel.pt width) / inject_Z w))) (option_map (fun p => (WordModel.pt (fst p), WordModel.pt (snd p))) place)]) (pk_links pk2))) as K3.
  { split; apply incl_refl. }
  split; [|split; [exact (keeps_trans _ _ _ K K3)|]; split; [reflexivity|]; split; [reflexivity|]; split; [exact N2|]; right; split; [reflexivity|]; split; [auto|]].
  2:{ eexists. split; [reflexivity|]. cbn [dr_width dr_height dr_place]. split; [|auto]. exists k. cbn [dr_rel pk_rels pk_parts]. split; [exact I2|]. rewrite P2. exact I1. }
  rewrite <- D1, <- D2. rewrite <- L1, <- L2. destruct S2 as [T1 T2 T3 T4 T5 T6 T7 T8]. constructor; cbn [pk_rels pk_parts pk_drawings pk_links]; auto.
  - rewrite map_app. apply NoDup_snoc; assumption.
  - intros d I. apply in_app_or in I. destruct I as [I|[<-|[]]]; [exact (T6 d I)|exact P].
  - intros d I. apply in_app_or in I. destruct I as [I|[<-|[]]]; [exact (T7 d I)|]. exists b, k. cbn [dr_rel pk_rels pk_parts]. split; [exact I2|]. rewrite P2. exact I1.
Qed.
(** One write. *)
Lemma write_spec e pk : sound pk -> exists pk' o ds ls, do_write recognise e pk = (pk', o) /\ sound pk' /\ keeps pk pk' /\
  pk_drawings pk' = pk_drawings pk ++ ds /\ pk_links pk' = pk_links pk ++ ls /\
  Forall2 (shows pk') ds (written_picture (e, o)) /\ Forall2 (leads pk') ls (link_of e) /\
  (forall k c, In (k, c) (pk_parts pk') -> In (k, c) (pk_parts pk) \/ In c (bytes_of e)) /\
  (o = Done <-> match e with Link _ => True | Inline b width => exists w h, recognise b = Known w h /\ writable w h width
                           | Floating b width _ _ => exists w h, recognise b = Known w h /\ writable w h width end) /\
  (o = Left_out <-> exists b width, e = Inline b width /\ recognise b = Unknown) /\
  (forall d, In d ds -> exists b width place w h, recognise b = Known w h /\ w <> 0%Z /\
     e = match place with None => Inline b width | Some (x, y) => Floating b width x y end /\
     dr_width d = WordModel.pt width /\ dr_height d = round_half_even (inject_Z h * (inject_Z (WordModel.pt width) / inject_Z w)) /\
     dr_place d = option_map (fun p => (WordModel.pt (fst p), WordModel.pt (snd p))) place).
Proof.
  intros S.
  assert (forall b width place w h, let e := match place with None => Inline b width | Some (x, y) => Floating b width x y end in recognise b = Known w h ->
    exists pk' o ds ls, put_picture b w h width place pk = (pk', o) /\ sound pk' /\ keeps pk pk' /\
      pk_drawings pk' = pk_drawings pk ++ ds /\ pk_links pk' = pk_links pk ++ ls /\
      Forall2 (shows pk') ds (written_picture (e, o)) /\ Forall2 (leads pk') ls (link_of e) /\
      (forall k c, In (k, c) (pk_parts pk') -> In (k, c) (pk_parts pk) \/ In c (bytes_of e)) /\
      (o = Done <-> exists w h, recognise b = Known w h /\ writable w h width) /\
      (o = Left_out <-> exists b width, e = Inline b width /\ recognise b = Unknown) /\
      (forall d, In d ds -> exists b width place w h, recognise b = Known w h /\ w <> 0%Z /\
        e = match place with None => Inline b width | Some (x, y) => Floating b width x y end /\
        dr_width d = WordModel.pt width /\ dr_height d = round_half_even (inject_Z h * (inject_Z (WordModel.pt width) / inject_Z w)) /\
        dr_place d = option_map (fun p => (WordModel.pt (fst p), WordModel.pt (snd p))) place)) as Put.
  { cbv zeta. intros b width place w h R. destruct (put_spec b w h width place pk S) as (pk' & o & ds & E & S' & K & L & D & N & C).
    assert (bytes_of (match place with None => Inline b width | Some (x, y) => Floating b width x y end) = [b]) as B by (destruct place as [(x & y)|]; reflexivity).
    assert (link_of (match place with None => Inline b width | Some (x, y) => Floating b width x y end) = []) as LK by (destruct place as [(x & y)|]; reflexivity).
    exists pk', o, ds, []. rewrite app_nil_r, B, LK. split; [exact E|]. split; [exact S'|]. split; [exact K|]. split; [exact D|]. split; [exact L|].
    split; [|split; [constructor|split; [|split; [|split]]]].
    - destruct C as [(-> & _ & ->)|(-> & _ & d & -> & X & _)]; destruct place as [(x & y)|]; cbn [written_picture]; auto.
    - intros k c I. destruct (N k c I) as [J| ->]; [left; exact J|right; left; reflexivity].
    - destruct C as [(-> & X & _)|(-> & X & _)]; split; intros H; try discriminate H; eauto. destruct H as (w' & h' & R' & W'). rewrite R in R'. injection R' as <- <-. destruct (X W').
    - split; intros H; [destruct C as [(-> & _)|(-> & _)]; discriminate H|]. destruct H as (b' & wd & E' & R'). destruct place as [(x & y)|]; [discriminate E'|]. injection E' as -> _. congruence.
    - intros d I. destruct C as [(_ & _ & ->)|(_ & W & d' & -> & _ & X1 & X2 & X3)]; [destruct I|]. destruct I as [<-|[]].
      exists b, width, place, w, h. repeat (split; [auto|]); auto. exact (proj1 W). }
  destruct e as [b width|b width x y|u]; cbn [do_write].
  - destruct (recognise b) as [w h| |] eqn:R.
    + destruct (Put b width None w h R) as (pk' & o & ds & ls & E & X). exists pk', o, ds, ls. split; [exact E|]. rewrite R in X. exact X.
    + exists pk, Left_out, [], []. rewrite !app_nil_r. cbn [written_picture link_of]. do 8 (split; [auto using keeps_refl|]). split.
      { split; [discriminate|]. intros (w & h & X & _). discriminate X. } split; [|intros d []]. split; [|reflexivity]. intros _. exists b, width. split; [reflexivity|exact R].
    + exists pk, Failed, [], []. rewrite !app_nil_r. cbn [written_picture link_of]. do 8 (split; [auto using keeps_refl|]). split.
      { split; [discriminate|]. intros (w & h & X & _). discriminate X. } split; [|intros d []]. split; [discriminate|]. intros (b' & w' & E & X). injection E as -> ->. congruence.
  - assert (forall s, (match s with Known w h => False | _ => True end) -> recognise b = s ->
      exists pk' o ds ls, (pk, Failed) = (pk', o) /\ sound pk' /\ keeps pk pk' /\ pk_drawings pk' = pk_drawings pk ++ ds /\ pk_links pk' = pk_links pk ++ ls /\
      Forall2 (shows pk') ds (written_picture (Floating b width x y, o)) /\ Forall2 (leads pk') ls (link_of (Floating b width x y)) /\
      (forall k c, In (k, c) (pk_parts pk') -> In (k, c) (pk_parts pk) \/ In c (bytes_of (Floating b width x y))) /\
      (o = Done <-> exists w h, s = Known w h /\ writable w h width) /\
      (o = Left_out <-> exists b' width', Floating b width x y = Inline b' width' /\ recognise b' = Unknown) /\
      (forall d, In d ds -> exists b' width' place w h, recognise b' = Known w h /\ w <> 0%Z /\
        Floating b width x y = match place with None => Inline b' width' | Some (x', y') => Floating b' width' x' y' end /\
        dr_width d = WordModel.pt width' /\ dr_height d = round_half_even (inject_Z h * (inject_Z (WordModel.pt width') / inject_Z w)) /\
        dr_place d = option_map (fun p => (WordModel.pt (fst p), WordModel.pt (snd p))) place)) as Bad.
    { intros s Hs R. exists pk, Failed, [], []. rewrite !app_nil_r. cbn [written_picture link_of]. do 8 (split; [auto using keeps_refl|]). split.
      { split; [discriminate|]. intros (w & h & X & _). subst s. rewrite X in Hs. destruct Hs. } split; [|intros d []]. split; [discriminate|]. intros (b' & w' & E & X). discriminate E. }
    destruct (recognise b) as [w h| |] eqn:R.
    + destruct (Put b width (Some (x, y)) w h R) as (pk' & o & ds & ls & E & X). exists pk', o, ds, ls. split; [exact E|]. rewrite R in X. exact X.
    + exact (Bad Unknown I eq_refl).
    + exact (Bad Broken I eq_refl).
  - destruct (relate_spec (T_url u) pk S) as (r & pk1 & -> & S1 & K1 & I1 & P1 & D1 & L1); [discriminate|].
    eexists _, Done, [], [r]. split; [reflexivity|]. cbn [pk_rels pk_parts pk_drawings pk_links]. rewrite app_nil_r, D1, L1.
    split. { rewrite <- D1, <- L1. destruct S1 as [T1 T2 T3 T4 T5 T6 T7 T8]. constructor; cbn [pk_rels pk_parts pk_drawings pk_links]; auto.
             intros q I. apply in_app_or in I. destruct I as [I|[<-|[]]]; [exact (T8 q I)|]. exists u. exact I1. }
    split; [exact K1|]. split; [reflexivity|]. split; [reflexivity|]. cbn [written_picture link_of]. split; [constructor|]. split; [constructor; [exact I1|constructor]|].
    split; [rewrite P1; auto|]. split; [tauto|]. split; [|intros d []]. split; [discriminate|]. intros (b & w & E & _). discriminate E.
Qed.
Lemma Forall2_mono {A B} (R R' : A -> B -> Prop) l m : (forall a b, R a b -> R' a b) -> Forall2 R l m -> Forall2 R' l m.
Proof. intros H F. induction F; constructor; auto. Qed.
Lemma writes_spec es : forall pk, sound pk -> exists pk' os ds ls, do_writes recognise es pk = (pk', os) /\ List.length os = List.length es /\ sound pk' /\ keeps pk pk' /\
  pk_drawings pk' = pk_drawings pk ++ ds /\ pk_links pk' = pk_links pk ++ ls /\
  Forall2 (shows pk') ds (flat_map written_picture (combine es os)) /\ Forall2 (leads pk') ls (flat_map link_of es) /\
  (forall k c, In (k, c) (pk_parts pk') -> In (k, c) (pk_parts pk) \/ In c (flat_map bytes_of es)).
Proof.
  induction es as [|e es IH]; intros pk S.
  { exists pk, [], [], []. rewrite !app_nil_r. cbn. repeat (split; [auto using keeps_refl|]). auto. }
  cbn [do_writes]. destruct (write_spec e pk S) as (pk1 & o & ds & ls & -> & S1 & K1 & D1 & L1 & F1 & G1 & N1 & _).
  destruct (IH pk1 S1) as (pk2 & os & ds2 & ls2 & -> & LN & S2 & K2 & D2 & L2 & F2 & G2 & N2).
  exists pk2, (o :: os), (ds ++ ds2), (ls ++ ls2). split; [reflexivity|]. cbn [List.length combine flat_map]. split; [congruence|]. split; [exact S2|].
  split; [exact (keeps_trans _ _ _ K1 K2)|]. split; [rewrite D2, D1, app_assoc; reflexivity|]. split; [rewrite L2, L1, app_assoc; reflexivity|].
  split. { apply Forall2_app; [|exact F2]. eapply Forall2_mono; [|exact F1]. intros a b. apply shows_keeps, K2. }
  split. { apply Forall2_app; [|exact G2]. eapply Forall2_mono; [|exact G1]. intros a b. apply leads_keeps, K2. }
  intros k c I. rewrite in_app_iff. destruct (N2 k c I) as [J|J]; [|auto]. destruct (N1 k c J) as [M|M]; auto.
Qed.
End Write.
