(** Reading order in every layout. *)
From Verif Require Import LayoutSpec LayoutProof LayoutFormat FlowProof FlowProof2 GraphProof GeomProof.
From Coq Require Import List Permutation Sorted Lia.
Import ListNotations.
Open Scope Q_scope.

Lemma flat_table bs : forall k j bb, In (FTable j bb) (flat k bs) -> exists tb cs, nth_error (tabs bs) (j - k) = Some (LTable tb cs) /\ tab_box tb = bb /\ (k <= j)%nat.
Proof.
  induction bs as [|b bs IH]; intros k j bb H; [destruct H|]. destruct b as [t|b0 cs]; cbn [flat] in H; destruct H as [E|H]; try discriminate.
  - destruct (IH k j bb H) as (tb & cs & E & L). exists tb, cs. split; [exact E|exact L].
  - injection E as <- <-. exists b0, cs. rewrite Nat.sub_diag. split; [reflexivity|]. split; [reflexivity|lia].
  - destruct (IH (S k) j bb H) as (tb & cs' & E & B & L). exists tb, cs'. split; [|split; [exact B|lia]]. replace (j - k)%nat with (S (j - S k)) by lia. exact E.
Qed.
Lemma back_elems bs l : (forall b, In b l -> match b with FText _ => True | FTable k bb => exists tb cs, nth_error (tabs bs) k = Some (LTable tb cs) /\ tab_box tb = bb end) ->
  map lb_elem (flat_map (back (tabs bs)) l) = map f_elem l.
Proof.
  induction l as [|b l IH]; intros H; [reflexivity|]. cbn [flat_map map]. rewrite map_app, IH by (intros x Hx; apply H; right; exact Hx).
  specialize (H b (or_introl eq_refl)). destruct b as [t|k bb]; [reflexivity|]. destruct H as (tb & cs & E & <-). cbn [back]. rewrite E. reflexivity.
Qed.
Lemma sorted_map {A} (f : A -> elem) h l : StronglySorted (fun a b => reading_before h (f a) (f b)) l <-> StronglySorted (reading_before h) (map f l).
Proof.
  split.
  - induction 1 as [|a l S IH F]; cbn [map]; constructor; [exact IH|]. apply Forall_map. exact F.
  - intros S. remember (map f l) as m eqn:E. revert l E. induction S as [|a m S IH F]; intros [|b l] E; try discriminate; constructor; injection E as -> ->.
    + apply IH. reflexivity.
    + exact (proj1 (Forall_map f _ l) F).
Qed.
Lemma block_dir_map a b : map ln_dir (b_lines a) = map ln_dir (b_lines b) -> block_dir a = block_dir b.
Proof.
  assert (X : forall d, existsb (fun l => dir_eqb (ln_dir l) IGNORE) d = existsb (fun x => dir_eqb x IGNORE) (map ln_dir d)) by (induction d as [|x d IH]; [reflexivity|cbn [existsb map]; rewrite IH; reflexivity]).
  assert (Y : forall u d, forallb (fun x => dir_eqb (ln_dir x) u) d = forallb (fun x => dir_eqb x u) (map ln_dir d)) by (induction d as [|x d IH]; [reflexivity|cbn [forallb map]; rewrite IH; reflexivity]).
  intros E. unfold block_dir. rewrite !X, E. destruct (existsb _ _); [reflexivity|]. destruct (b_lines a) as [|x xs], (b_lines b) as [|y ys]; try discriminate E; [reflexivity|].
  cbn [map] in E. injection E as E1 E2. rewrite !Y, E1, E2. reflexivity.
Qed.
Lemma format_elems w ss bs w' bs' : text_format w ss bs = (w', bs') -> map lb_elem bs' = map lb_elem bs.
Proof.
  intros E. destruct (format_blocks_from _ _ w _ _ (w_shapes w) (kins_refl _) E) as (_ & _ & F). clear E.
  induction F as [|x y xs ys R F IH]; [reflexivity|]. cbn [map]. rewrite IH. f_equal. destruct R as [|i bb ls ls' D _]; [reflexivity|].
  cbn [lb_elem]. unfold b_elem. cbn [b_bbox]. f_equal. apply block_dir_map. exact D.
Qed.
Section O.
Variable order : list nat -> list nat.
Variable rorder : list (Q * Q) -> list (Q * Q).
Variable ids : nat -> nat.
Variable set_ : settings.
Variable Ho : forall l, Permutation l (order l).
Lemma split_back_sorted ids' tol sep bs out : split_back order ids' tol sep bs = Some out ->
  StronglySorted (reading_before (is_horizontal (coll_dir (map f_elem out)))) (map f_elem out) /\ (forall k bb, In (FTable k bb) out -> In (FTable k bb) bs).
Proof.
  intros E. unfold split_back in E. rewrite (part_spec order Ho) in E. unfold lines_split_back in E.
  set (L := flat_map _ _) in E. destruct (group_perm same_source order Ho L) as (gs & Eg & Pg). rewrite Eg in E. cbn [option_map] in E. injection E as <-.
  set (x := filter f_bool _). split.
  - apply (sorted_map f_elem). assert (D : coll_dir (map f_elem (sort_fblocks x)) = coll_dir (map f_elem x)) by (apply coll_dir_perm; apply Permutation_map; apply Permutation_sym, sort_fblocks_perm).
    rewrite D. apply sort_fblocks_sorted.
  - intros k bb H. apply sort_f_in in H. apply filter_In in H. destruct H as [H _]. apply in_app_or in H. destruct H as [H|H]; [apply filter_In in H; apply H|].
    exfalso. clear - H. revert H. generalize 0%nat. generalize (map lines_sort gs). induction l as [|g l IH]; intros n H; [destruct H|]. cbn [source_blocks] in H. destruct H as [H|H]; [discriminate H|exact (IH _ H)].
Qed.
Lemma level_sorted top w box bs ss w' out : level order rorder ids set_ top w box bs ss = Ok (w', out) -> in_reading_order out.
Proof.
  intros E. unfold level in E. destruct (if top then _ else _) as [[[w0 b0] s0]| |]; try discriminate. cbn [bind] in E.
  destruct (bind (lattice _ _ _ _) _) as [[[w1 b1] s1]| |]; try discriminate. cbn [bind] in E.
  destruct (bind (stream _ _ _ _ _ _ _) _) as [[[w2 b2] s2]| |]; try discriminate. cbn [bind] in E.
  destruct (split_back _ _ _ _ _) as [o|] eqn:Es; [|discriminate]. injection E as E. destruct (split_back_sorted _ _ _ _ _ Es) as [S T].
  apply format_elems in E. unfold in_reading_order. apply (sorted_map lb_elem). rewrite E. rewrite back_elems; [exact S|]. intros [t|k bb] Hb; [exact I|]. destruct (flat_table b2 0 k bb (T k bb Hb)) as (tb & cs & E1 & B & _). exists tb, cs.
  rewrite Nat.sub_0_r in E1. split; [exact E1|exact B].
Qed.
Lemma parse_elems rec bs : forall w w' out, parse_tables rec w bs = Ok (w', out) -> map lb_elem out = map lb_elem bs.
Proof.
  induction bs as [|b bs IH]; intros w w' out E; cbn [parse_tables] in E; [injection E as <- <-; reflexivity|].
  match type of E with bind ?X _ = _ => set (here := X) in E; destruct here as [[w1 b1]| |] eqn:E1; try discriminate end. cbn [bind fst snd] in E.
  destruct (parse_tables rec w1 bs) as [[w2 b2]| |] eqn:E2; try discriminate. cbn [bind fst snd] in E. injection E as <- <-. cbn [map]. f_equal; [|eapply IH; exact E2].
  subst here. destruct b as [t|bb cs]; [injection E1 as <- <-; reflexivity|]. destruct (parse_cells rec w cs) as [[w3 c3]| |]; try discriminate. cbn [bind fst snd] in E1. injection E1 as <- <-. reflexivity.
Qed.
Definition rec_sorted (rec : world -> rect -> list lblock -> lshapes -> res (world * list lblock)) : Prop :=
  forall w b bs ss w' out l, rec w b bs ss = Ok (w', out) -> layout_of out l -> in_reading_order l.
Lemma cells_sorted rec cs : rec_sorted rec -> forall w w' cs', parse_cells rec w cs = Ok (w', cs') ->
  forall i ss bs l, In (Some i, ss, bs) cs' -> rect_bool (bc_bbox i) = true -> layout_of bs l -> in_reading_order l.
Proof.
  intros Hr. induction cs as [|c cs IH]; intros w w' cs' E i ss bs l Hc Hi Hl; cbn [parse_cells] in E; [injection E as <- <-; destruct Hc|].
  match type of E with bind ?X _ = _ => set (here := X) in E; destruct here as [[w1 c1]| |] eqn:E1; try discriminate end. cbn [bind fst snd] in E.
  destruct (parse_cells rec w1 cs) as [[w2 c2]| |] eqn:E2; try discriminate. cbn [bind fst snd] in E. injection E as <- <-. destruct Hc as [->|Hc]; [|eapply IH; eauto].
  subst here. destruct c as [[ci cs0] cb]. cbn [lc_info lc_shapes lc_blocks fst snd] in E1. destruct ci as [j|]; [|discriminate].
  destruct (rect_bool (bc_bbox j)) eqn:Ej.
  - destruct (rec w (working_box j) cb cs0) as [[w3 o3]| |] eqn:Er; try discriminate. cbn [bind fst snd] in E1. injection E1 as <- <- <- <-. eapply Hr; eauto.
  - injection E1 as <- <- <- <-. congruence.
Qed.
Lemma tables_sorted rec bs : rec_sorted rec -> forall w w' out, parse_tables rec w bs = Ok (w', out) ->
  forall bb cs i ss b1 l, In (LTable bb cs) out -> In (Some i, ss, b1) cs -> rect_bool (bc_bbox i) = true -> layout_of b1 l -> in_reading_order l.
Proof.
  intros Hr. induction bs as [|b bs IH]; intros w w' out E bb cs i ss b1 l Hb Hc Hi Hl; cbn [parse_tables] in E; [injection E as <- <-; destruct Hb|].
  match type of E with bind ?X _ = _ => set (here := X) in E; destruct here as [[w1 b2]| |] eqn:E1; try discriminate end. cbn [bind fst snd] in E.
  destruct (parse_tables rec w1 bs) as [[w2 o2]| |] eqn:E2; try discriminate. cbn [bind fst snd] in E. injection E as <- <-. destruct Hb as [->|Hb]; [|eapply IH; eauto].
  subst here. destruct b as [t|bb' cs']; [discriminate|]. destruct (parse_cells rec w cs') as [[w3 c3]| |] eqn:Ec; try discriminate. cbn [bind fst snd] in E1. injection E1 as <- <- <-.
  eapply cells_sorted; eauto.
Qed.
Lemma parse_sorted fuel : forall top w box bs ss w' out l, layout_parse order rorder ids set_ fuel top w box bs ss = Ok (w', out) -> layout_of out l -> in_reading_order l.
Proof.
  induction fuel as [|fuel IH]; intros top w box bs ss w' out l E Hl; cbn [layout_parse] in E; [discriminate|].
  destruct (level order rorder ids set_ top w box bs ss) as [[w1 b1]| |] eqn:E1; try discriminate. cbn [bind fst snd] in E.
  apply level_sorted in E1. assert (M := parse_elems _ _ _ _ _ E). destruct Hl as [out|out bb cs i s1 b2 b3 H1 H2 H3 H4].
  - unfold in_reading_order in *. apply (proj1 (sorted_map lb_elem _ _)) in E1. apply (sorted_map lb_elem). rewrite M. exact E1.
  - eapply tables_sorted; [|exact E| | | |]; eauto. intros w2 b bs2 ss2 w3 o l H H'. eapply IH; eauto.
Qed.
End O.
