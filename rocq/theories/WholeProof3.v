(** Splitting lines back into the blocks of the pdf. *)
From Verif Require Import GeomProof AssignSpec AssignProof InterProof GraphProof TextProof TextProps PySort FlowModel FlowSpec FlowProof.
From Verif Require Import CleanSpec CleanProof CleanProof2 CleanProof3.
From Verif Require Import WholeSpec.
From Verif Require Import CleanModel CleanSpec FlowModel FlowSpec WholeProof.
From Verif Require Import GraphSpec.
From Coq Require Import Lia Lqa Permutation Sorting.Sorted Relations.
Notation length := List.length.
Open Scope Q_scope.

Lemma NoDup_lists {A} (gs : list (list A)) : NoDup (concat gs) -> (forall g, In g gs -> g <> []) -> NoDup gs.
Proof.
  induction gs as [|g gs IH]; intros N H; [constructor|]. cbn [concat] in N. constructor.
  - intros Hg. destruct g as [|a g]; [exact (H [] (or_introl eq_refl) eq_refl)|]. cbn [app] in N. inversion N as [|? ? N1 _]; subst. apply N1. apply in_or_app. right. apply in_concat. exists (a :: g). split; [exact Hg|left; reflexivity].
  - apply IH; [|intros x Hx; apply H; right; exact Hx]. clear - N. induction g as [|a g IHg]; [exact N|]. apply IHg. cbn in N. inversion N; assumption.
Qed.
Lemma beneath_NoDup ls : (forall l, In l ls -> flat_line l) -> StronglySorted beneath ls -> NoDup ls.
Proof.
  intros H S. induction S as [|l t S IH F]; constructor; [|apply IH; intros x Hx; apply H; right; exact Hx].
  intros Hl. rewrite Forall_forall in F. specialize (F l Hl). destruct (flat_ext l (H l (or_introl eq_refl))) as [A _]. unfold beneath in F. lra.
Qed.
Lemma source_chain ls i j a b : chained same_source ls i j -> nth_error ls i = Some a -> nth_error ls j = Some b -> (forall l, In l ls -> ln_pid l <> None) -> ln_pid a = ln_pid b.
Proof.
  intros C. revert a b. induction C as [i j P|i|i k j C1 IH1 C2 IH2]; intros a b Ha Hb H.
  - assert (S : forall x y, same_source x y = true -> ln_pid x = ln_pid y) by (intros x y E; apply same_source_iff in E; destruct E as (p & E1 & E2); unfold from_source in *; congruence).
    destruct P as [(_ & x & y & Hx & Hy & E)|(_ & x & y & Hx & Hy & E)]; apply S in E; congruence.
  - congruence.
  - destruct (nth_error ls k) as [c|] eqn:Ec; [rewrite (IH1 a c Ha eq_refl H); apply IH2; [exact eq_refl|exact Hb|exact H]|].
    exfalso. assert (R : forall i j, chained same_source ls i j -> i <> j -> (j < List.length ls)%nat).
    { intros i0 j0 C. induction C as [x y P|x|x y z C1' I1 C2' I2]; intros N; [apply (pair_holds_lt same_source) in P; lia|congruence|]. destruct (Nat.eq_dec y z) as [->|N2]; [apply I1, N|apply I2, N2]. }
    apply nth_error_None in Ec. destruct (Nat.eq_dec i k) as [->|N]; [assert (K : nth_error ls k <> None) by congruence; apply nth_error_Some in K; lia|]. specialize (R i k C1 N). lia.
Qed.
(** Groups of lines by origin. *)
Lemma group_sources order ls : (forall l, Permutation l (order l)) -> (forall l, In l ls -> ln_pid l <> None) ->
  exists gs, group same_source order ls = Some gs /\ Permutation (concat gs) ls /\ (forall g, In g gs -> g <> []) /\
    forall g a b, In g gs -> In a g -> In b ls -> ln_pid b = ln_pid a -> In b g.
Proof.
  intros Ho Hp. destruct (group_perm same_source order Ho ls) as (gs & E & P). destruct (group_indexes_spec same_source order Ho ls) as (gi & G1 & G2 & G3 & G4 & G5).
  exists gs. split; [exact E|]. split; [exact P|]. unfold group in E. rewrite G1 in E. injection E as <-.
  assert (In' : forall x grp, In x (flat_map (item_at ls) grp) <-> exists i, In i grp /\ nth_error ls i = Some x).
  { intros x grp. rewrite in_flat_map. unfold item_at. split; intros (i & Hi & Hx); exists i; split; try exact Hi; [destruct (nth_error ls i) eqn:En; [destruct Hx as [<-|[]]; reflexivity|destruct Hx]|rewrite Hx; left; reflexivity]. }
  split.
  - intros g Hg. apply in_map_iff in Hg. destruct Hg as (grp & <- & Hg). destruct grp as [|i grp]; [exfalso; exact (G4 [] Hg eq_refl)|].
    assert (Li : (i < List.length ls)%nat) by (apply G3; apply in_concat; exists (i :: grp); split; [exact Hg|left; reflexivity]).
    intros E. apply nth_error_Some in Li. destruct (nth_error ls i) as [x|] eqn:En; [|congruence].
    assert (Hx : In x (flat_map (item_at ls) (i :: grp))) by (apply In'; exists i; split; [left; reflexivity|exact En]). rewrite E in Hx. destruct Hx.
  - intros g a b Hg Ha Hb Epid. apply in_map_iff in Hg. destruct Hg as (grp & <- & Hg). apply In' in Ha. destruct Ha as (i & Hi & Ea). apply In_nth_error in Hb. destruct Hb as (j & Ej). apply In'. exists j. split; [|exact Ej].
    apply (G5 grp i j Hg Hi). destruct (Nat.eq_dec i j) as [->|N]; [apply rt_refl|]. apply rt_step.
    assert (S : same_source a b = true /\ same_source b a = true).
    { assert (Hpa := Hp a (nth_error_In _ _ Ea)). destruct (ln_pid a) as [p|] eqn:Epa; [|congruence]. split; apply same_source_iff; exists p; split; unfold from_source; congruence. }
    destruct (Nat.lt_total i j) as [L|[L|L]]; [left|congruence|right]; (split; [exact L|]); [exists a, b|exists b, a]; repeat split; try assumption; apply S.
Qed.
Lemma other_blocks ts a b : ForallOrdPairs other_block ts -> In a ts -> In b ts -> a = b \/ other_block a b.
Proof.
  intros F Ha Hb. induction F as [|x t Fx F IH]; [destruct Ha|]. rewrite Forall_forall in Fx. destruct Ha as [<-|Ha], Hb as [<-|Hb]; [left; reflexivity|right; apply Fx, Hb| |apply IH; assumption].
  right. intros l m Hl Hm E. exact (Fx a Ha m l Hm Hl (eq_sym E)).
Qed.
Lemma split_sources order ls ts : (forall l, Permutation l (order l)) -> Forall paragraph ts -> ForallOrdPairs other_block ts -> StronglySorted beneath (lines_in ts) ->
  Permutation ls (lines_in ts) -> exists gs, lines_split_back order ls = Some gs /\ Permutation gs (map b_lines ts).
Proof.
  intros Ho Pa Ot St P. rewrite Forall_forall in Pa.
  assert (Fl : forall t l, In t ts -> In l (b_lines t) -> flat_line l) by (intros t l Ht Hl; destruct (Pa t Ht) as (_ & _ & _ & _ & H); exact (H l Hl)).
  assert (FL : forall l, In l (lines_in ts) -> flat_line l) by (intros l Hl; apply in_flat_map in Hl; destruct Hl as (t & Ht & Hl); exact (Fl t l Ht Hl)).
  assert (Back : forall l, In l ls -> exists t, In t ts /\ In l (b_lines t)) by (intros l Hl; apply (Permutation_in _ P) in Hl; apply in_flat_map in Hl; exact Hl).
  destruct (group_sources order ls Ho) as (gs & Eg & Pg & Ne & Cl).
  { intros l Hl. destruct (Back l Hl) as (t & Ht & Hlt). destruct (Pa t Ht) as (_ & _ & _ & (p & Hp) & _). rewrite (Hp l Hlt). discriminate. }
  pose proof (beneath_NoDup _ FL St) as ND. assert (NDg : NoDup (concat gs)) by (eapply Permutation_NoDup; [apply Permutation_sym; eapply Permutation_trans; [exact Pg|exact P]|exact ND]).
  unfold lines_split_back. rewrite Eg. cbn [option_map]. exists (map lines_sort gs). split; [reflexivity|].
  assert (Sub : forall g l, In g gs -> In l g -> In l ls) by (intros g l Hg Hl; eapply Permutation_in; [exact Pg|]; apply in_concat; exists g; split; assumption).
  assert (Part : forall t, In t ts -> exists r, Permutation (lines_in ts) (b_lines t ++ r)).
  { intros t Ht. apply in_split in Ht. destruct Ht as (x & y & ->). exists (lines_in x ++ lines_in y). rewrite lines_in_app. change (lines_in (t :: y)) with (b_lines t ++ lines_in y). rewrite !app_assoc. apply Permutation_app_tail, Permutation_app_comm. }
  assert (Nt : forall t, In t ts -> NoDup (b_lines t) /\ StronglySorted beneath (b_lines t)).
  { intros t Ht. clear - Ht ND St. induction ts as [|x r IH]; [destruct Ht|]. change (lines_in (x :: r)) with (b_lines x ++ lines_in r) in *. destruct Ht as [->|Ht].
    - split; [clear - ND; induction (b_lines t) as [|a m IHm]; [constructor|]; cbn [app] in ND; inversion ND as [|? ? N1 N2]; subst; constructor; [intros K; apply N1, in_or_app; left; exact K|apply IHm, N2]|].
      clear - St. induction (b_lines t) as [|a m IHm]; [constructor|]. cbn [app] in St. inversion St as [|? ? S1 F]; subst. constructor; [apply IHm, S1|]. rewrite Forall_forall in *. intros z Hz. apply F, in_or_app. left. exact Hz.
    - apply IH; [| |exact Ht].
      + clear - St. induction (b_lines x) as [|a m IHm]; [exact St|]. cbn [app] in St. inversion St; subst. apply IHm. assumption.
      + clear - ND. induction (b_lines x) as [|a m IHm]; [exact ND|]. cbn [app] in ND. inversion ND; subst. apply IHm. assumption. }
  assert (Ng : forall g, In g gs -> NoDup g).
  { intros g Hg. clear - Hg NDg. induction gs as [|x r IH]; [destruct Hg|]. cbn [concat] in NDg. destruct Hg as [->|Hg].
    - clear IH. induction g as [|a m IHm]; [constructor|]. cbn [app] in NDg. inversion NDg as [|? ? N1 N2]; subst. constructor; [intros K; apply N1, in_or_app; left; exact K|]. apply IHm, N2.
    - apply IH; [|exact Hg]. clear - NDg. induction x as [|a m IHm]; [exact NDg|]. cbn [app] in NDg. inversion NDg; subst. apply IHm. assumption. }
  assert (Match : forall g t a, In g gs -> In t ts -> In a g -> In a (b_lines t) -> lines_sort g = b_lines t).
  { intros g t a Hg Ht Ha Hat. apply lines_sort_down; [intros l Hl; apply (Fl t l Ht Hl)|apply (Nt t Ht)|]. apply NoDup_Permutation; [apply Ng, Hg|apply (Nt t Ht)|]. intros b. destruct (Pa t Ht) as (_ & _ & _ & (p & Hp) & _). split; intros Hb.
    - destruct (Back b (Sub g b Hg Hb)) as (t' & Ht' & Hbt'). destruct (other_blocks ts t t' Ot Ht Ht') as [->|O]; [exact Hbt'|]. exfalso. apply (O a b Hat Hbt').
      (* same group, same origin *)
      assert (K : ln_pid b = ln_pid a); [|congruence].
      clear - Hg Ha Hb Eg Ho Back Pa. unfold group in Eg. destruct (group_indexes_spec same_source order Ho ls) as (gi & G1 & _ & _ & _ & G5). rewrite G1 in Eg. injection Eg as <-. apply in_map_iff in Hg. destruct Hg as (grp & <- & Hg).
      apply in_flat_map in Ha. destruct Ha as (i & Hi & Ea). apply in_flat_map in Hb. destruct Hb as (j & Hj & Eb). unfold item_at in Ea, Eb. destruct (nth_error ls i) as [x|] eqn:Ei; [destruct Ea as [->|[]]|destruct Ea]. destruct (nth_error ls j) as [y|] eqn:Ej; [destruct Eb as [->|[]]|destruct Eb].
      symmetry. apply (source_chain ls i j a b); [apply (G5 grp i j Hg Hi), Hj|exact Ei|exact Ej|]. intros l Hl. destruct (Back l Hl) as (t & Ht & Hlt). destruct (Pa t Ht) as (_ & _ & _ & (p & Hp) & _). rewrite (Hp l Hlt). discriminate.
    - apply (Cl g a b Hg Ha); [eapply Permutation_in; [apply Permutation_sym, P|]; apply in_flat_map; exists t; split; assumption|]. rewrite (Hp b Hb), (Hp a Hat). reflexivity. }
  apply NoDup_Permutation.
  - apply NoDup_lists.
    + eapply Permutation_NoDup; [|exact NDg]. clear. induction gs as [|g r IH]; [constructor|]. cbn [map concat]. apply Permutation_app; [apply lines_sort_perm|exact IH].
    + intros s Hs. apply in_map_iff in Hs. destruct Hs as (g & <- & Hg). intros E. apply (Ne g Hg). apply Permutation_nil. rewrite <- E. apply Permutation_sym, lines_sort_perm.
  - apply NoDup_lists; [rewrite <- flat_map_concat_map; exact ND|]. intros s Hs. apply in_map_iff in Hs. destruct Hs as (t & <- & Ht). apply (Pa t Ht).
  - intros s. rewrite !in_map_iff. split.
    + intros (g & <- & Hg). destruct g as [|a g0]; [exfalso; exact (Ne [] Hg eq_refl)|]. destruct (Back a (Sub _ a Hg (or_introl eq_refl))) as (t & Ht & Hat). exists t. split; [|exact Ht]. symmetry. apply (Match (a :: g0) t a Hg Ht (or_introl eq_refl) Hat).
    + intros (t & <- & Ht). destruct (b_lines t) as [|a r] eqn:Et; [exfalso; exact (proj1 (proj2 (proj2 (Pa t Ht))) Et)|]. assert (Hat : In a (b_lines t)) by (rewrite Et; left; reflexivity).
      assert (Ha : In a (concat gs)) by (eapply Permutation_in; [apply Permutation_sym; eapply Permutation_trans; [exact Pg|exact P]|]; apply in_flat_map; exists t; split; assumption).
      apply in_concat in Ha. destruct Ha as (g & Hg & Ha). exists g. split; [|exact Hg]. rewrite <- Et. apply (Match g t a Hg Ht Ha Hat).
Qed.
