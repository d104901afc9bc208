(** C63: where Word sets the blocks of a page or a cell. *)
From Verif Require Import SpacingSpec SpacingProof ParaProof ParaProps.
From Coq Require Import List Lia.
Open Scope Q_scope.

Theorem C63_positions container bs vs ys : let h := orientation bs in
  parse_spacing container bs = Some vs -> (forall b, In b bs -> settable h b) -> tables_fit h container false (lo h container) bs ->
  flows (lo h container) bs vs ys -> Forall2 (fun b z => z == v_end h b) bs ys.
Proof. cbv zeta. intros E St Fit F. exact (first_positions _ _ _ _ E St Fit _ F). Qed.
Print Assumptions C63_positions.

(** Text alone: no condition on gaps, overlaps or the container. *)
Lemma text_fits h c : forall bs f ref, (forall b, In b bs -> exists bb ls, b = VText bb ls) -> tables_fit h c f ref bs.
Proof.
  induction bs as [|b bs IH]; intros f ref H; [exact I|]. destruct (H b (or_introl eq_refl)) as (bb & ls & ->). cbn [tables_fit].
  split; [exact I|]. apply IH. intros x Hx. apply H. right. exact Hx.
Qed.
Theorem C63_text_only container bs vs ys : let h := orientation bs in
  parse_spacing container bs = Some vs -> (forall b, In b bs -> settable h b /\ exists bb ls, b = VText bb ls) ->
  flows (lo h container) bs vs ys -> Forall2 (fun b z => z == v_end h b) bs ys.
Proof. cbv zeta. intros E St F. apply (C63_positions container bs vs); [exact E|intros b Hb; apply St; exact Hb|apply text_fits; intros b Hb; apply St; exact Hb|exact F]. Qed.
Print Assumptions C63_text_only.

(** One record of spaces per block, and a layout exists. *)
Lemma loop_length h c : forall bs prev ref vs, spacing_loop h c prev ref bs = Some vs ->
  List.length vs = (List.length bs + match prev with Some _ => 1 | None => 0 end)%nat.
Proof.
  induction bs as [|b bs IH]; intros prev ref vs E.
  - cbn in E. injection E as <-. destruct prev as [(p, v)|]; reflexivity.
  - cbn [spacing_loop] in E. cbv zeta in E. destruct (v_border b) as [dw|]; [|discriminate].
    assert (D : forall v0 rest done, spacing_loop h c (Some (b, v0)) (hi h (v_box b) + dw) bs = Some rest ->
              List.length done = match prev with Some _ => 1%nat | None => 0%nat end ->
              List.length (done ++ rest) = (List.length (b :: bs) + match prev with Some _ => 1 | None => 0 end)%nat).
    { intros v0 rest done Er Ld. rewrite app_length, (IH _ _ _ Er), Ld. cbn [List.length]. lia. }
    assert (Ld : List.length (match prev with None => [] | Some (_, v) => [v] end) = match prev with Some _ => 1%nat | None => 0%nat end) by (destruct prev as [(p, v)|]; reflexivity).
    destruct b as [bb ls|bb|bb w hs].
    + destruct (line_spacing bb ls _) as [(before, l)|]; [|discriminate].
      destruct (spacing_loop h c _ _ bs) as [rest|] eqn:Er; [|discriminate]. injection E as <-. exact (D _ _ _ Er Ld).
    + destruct (spacing_loop h c _ _ bs) as [rest|] eqn:Er; [|discriminate]. injection E as <-. exact (D _ _ _ Er Ld).
    + destruct prev as [(p, v)|].
      * destruct (v_is_text p).
        -- destruct (spacing_loop h c _ _ bs) as [rest|] eqn:Er; [|discriminate]. injection E as <-.
           apply (D _ _ [mkV (v_before v) (para_space h c ref dw (VTable bb w hs)) (v_line v)] Er). reflexivity.
        -- destruct (spacing_loop h c _ _ bs) as [rest|] eqn:Er; [|discriminate]. injection E as <-. exact (D _ _ _ Er Ld).
      * exact (D _ _ [] E eq_refl).
Qed.
Lemma flows_exist h : forall bs y vs, (forall b, In b bs -> settable h b) -> List.length vs = List.length bs -> exists ys, flows y bs vs ys.
Proof.
  induction bs as [|b bs IH]; intros y vs St L.
  - destruct vs; [|discriminate]. exists []. constructor.
  - destruct vs as [|v vs]; [discriminate|]. injection L as L. assert (Sb := St b (or_introl eq_refl)). assert (St' := fun x Hx => St x (or_intror Hx)).
    destruct b as [bb ls|bb|bb [w|] hs]; cbn [settable] in Sb; try (destruct Sb; fail).
    + destruct Sb as (_ & n & R & _). destruct (IH (y + v_before v + num n * v_line v + v_after v) vs St' L) as (ys & F). eexists. econstructor; eassumption.
    + destruct (IH (y + v_before v + w / 2 + total hs + w / 2) vs St' L) as (ys & F). eexists. econstructor. eassumption.
Qed.
Theorem C63_laid_out container bs vs : let h := orientation bs in parse_spacing container bs = Some vs ->
  List.length vs = List.length bs /\ ((forall b, In b bs -> settable h b) -> exists ys, flows (lo h container) bs vs ys).
Proof.
  cbv zeta. intros E. assert (L : List.length vs = List.length bs) by (apply loop_length in E; lia).
  split; [exact L|]. intros St. exact (flows_exist _ bs _ vs St L).
Qed.
Print Assumptions C63_laid_out.

(** No space is negative, whatever the blocks. *)
Theorem C63_spaces_nonneg container bs vs v : parse_spacing container bs = Some vs -> In v vs -> 0 <= v_before v /\ 0 <= v_after v.
Proof. intros E. exact (spaces_nonneg _ _ _ _ _ _ E I v). Qed.
Print Assumptions C63_spaces_nonneg.

(** It fails only on a text block without lines or a table without a first cell. *)
Definition lineless (b : vblock) : Prop := match b with VText _ ls => ls = [] | VImage _ => False | VTable _ w _ => w = None end.
Lemma loop_total h c : forall bs prev ref, spacing_loop h c prev ref bs = None <-> exists b, In b bs /\ lineless b.
Proof.
  assert (OM : forall A B (f : A -> B) o, option_map f o = None <-> o = None) by (intros A B f [x|]; cbn; split; congruence).
  induction bs as [|b bs IH]; intros prev ref.
  - cbn. split; [discriminate|intros (b & [] & _)].
  - assert (R : (exists x, In x (b :: bs) /\ lineless x) <-> lineless b \/ exists x, In x bs /\ lineless x).
    { split; [intros (x & [<-|Hx] & L); [left; exact L|right; exists x; split; assumption]|intros [L|(x & Hx & L)]; [exists b; split; [left; reflexivity|exact L]|exists x; split; [right; exact Hx|exact L]]]. }
    rewrite R. cbn [spacing_loop]. cbv zeta. destruct b as [bb ls|bb|bb w hs]; cbn [v_border lineless].
    + destruct ls as [|l0 t]; [cbn; split; [intros _; left; reflexivity|intros; reflexivity]|].
      assert (S : exists p, line_spacing bb (l0 :: t) (lo h bb - 0 - ref) = Some p) by (unfold line_spacing; destruct (qlt _ 0); eexists; reflexivity).
      destruct S as ((before, l) & ->). rewrite OM, IH. split; [intros H; right; exact H|intros [H|H]; [discriminate|exact H]].
    + rewrite OM, IH. split; [intros H; right; exact H|intros [[]|H]; exact H].
    + destruct w as [w|]; [|split; [intros _; left; reflexivity|reflexivity]]. destruct prev as [(p, v)|]; [destruct (v_is_text p)|]; rewrite ?OM, IH; (split; [intros H; right; exact H|intros [H|H]; [discriminate|exact H]]).
Qed.
Theorem C63_defined container bs : parse_spacing container bs = None <-> exists b, In b bs /\ lineless b.
Proof. apply loop_total. Qed.
Print Assumptions C63_defined.

(** The numbers that are written: the blocks stay within the rounding budget of their places. *)
Theorem C63_written_drift container bs vs ys zs es : let h := orientation bs in
  parse_spacing container bs = Some vs -> (forall b, In b bs -> settable h b) -> tables_fit h container false (lo h container) bs ->
  flows (lo h container) bs vs ys -> written false (lo h container) bs vs zs -> budget 0 bs vs es ->
  forall k b z e, nth_error bs k = Some b -> nth_error zs k = Some z -> nth_error es k = Some e -> Qabs (z - v_end h b) <= e.
Proof.
  cbv zeta. intros E St Fit F W B k b z e Hb Hz He. pose proof (C63_positions container bs vs ys E St Fit F) as P.
  assert (N : forall l1 l2 (H : Forall2 (fun b z => z == v_end (orientation bs) b) l1 l2) j b0, nth_error l1 j = Some b0 -> exists a, nth_error l2 j = Some a /\ a == v_end (orientation bs) b0).
  { clear. induction 1 as [|x y l1 l2 H0 H1 IH]; intros j b0 Hj; [destruct j; discriminate|]. destruct j as [|j]; cbn in Hj |- *; [injection Hj as <-; exists y; split; [reflexivity|exact H0]|apply IH; exact Hj]. }
  destruct (N _ _ P k b Hb) as (a & Ha & Ea).
  assert (D : - e <= z - a <= e).
  { apply (written_drift bs false (lo (orientation bs) container) (lo (orientation bs) container) 0 vs ys zs es) with (k := k); try assumption; [|lra].
    intros v Hv. exact (C63_spaces_nonneg container bs vs v E Hv). }
  apply Qabs_Qle_condition. rewrite <- Ea. exact D.
Qed.
Print Assumptions C63_written_drift.
(** [written] is what goes into the paragraph and into the empty paragraph before a table. *)
Theorem C63_paragraph_numbers bb p ls breaks v : let w := make_paragraph bb p (v_before v) (v_after v) (v_line v) ls breaks in
  wp_before w = written_space (v_before v) /\ wp_after w = written_space (v_after v) /\ wp_line w = round1 (v_line v) /\
  ((forall l s, In l ls -> In s (ln_spans l) -> exists t, s = SText t) -> wp_exact w = true).
Proof.
  split; [reflexivity|]. split; [reflexivity|]. split; [reflexivity|]. intros H. cbn [make_paragraph wp_exact]. rewrite forallb_forall. intros l Hl. rewrite forallb_forall. intros s Hs. destruct (H l s Hl Hs) as (t & ->). reflexivity.
Qed.
Print Assumptions C63_paragraph_numbers.

(** A table at the end of the list (and only such a one) loses 1pt of height, from its last row:
    exactly what the empty paragraph behind it takes. *)
Lemma combine_seq {A} (l : list A) : forall s k x, nth_error l k = Some x -> nth_error (combine (seq s (List.length l)) l) k = Some ((s + k)%nat, x).
Proof.
  induction l as [|a l IH]; intros s k x H; [destruct k; discriminate|]. destruct k as [|k]; cbn in H |- *.
  - injection H as <-. rewrite Nat.add_0_r. reflexivity.
  - rewrite (IH (S s) k x H). f_equal. f_equal. lia.
Qed.
Theorem C63_last_table bs k bb w hs : nth_error bs k = Some (VTable bb w hs) ->
  exists hs', nth_error (final_heights bs) k = Some hs' /\ ((S k < List.length bs)%nat -> hs' = hs) /\
    (S k = List.length bs -> forall front x, hs = front ++ [x] -> hs' = front ++ [x - 1] /\ total hs' + 1 == total hs).
Proof.
  intros H. assert (Lk : (k < List.length bs)%nat) by (apply nth_error_Some; congruence).
  exists (if Nat.eqb (S k) (List.length bs) then shrink_last hs else hs). split; [|split].
  - unfold final_heights. rewrite nth_error_map, (combine_seq bs 0 k _ H). reflexivity.
  - intros L. destruct (Nat.eqb_spec (S k) (List.length bs)); [lia|reflexivity].
  - intros L front x Eh. subst hs. destruct (Nat.eqb_spec (S k) (List.length bs)); [|lia].
    assert (Es : shrink_last (front ++ [x]) = front ++ [x - 1]) by (unfold shrink_last; rewrite rev_app_distr; cbn [rev app]; rewrite rev_involutive; reflexivity).
    split; [exact Es|]. rewrite shrink_total; [lra|]. destruct front; discriminate.
Qed.
Print Assumptions C63_last_table.

(** Refuted: "row heights stay positive": a closing row thinner than 1pt (a ruled line drawn as a
    row) gets a negative height, which python-docx refuses (ValueError). *)
Theorem C63_thin_row_refuted : exists bs hs x, nth_error (final_heights bs) 0 = Some hs /\ In x hs /\ x < 0 /\
  bs = [VTable (mkRect 0 0 100 (205 # 10)) (Some 1) [20; 5 # 10]].
Proof. do 3 eexists. split; [|split; [|split; [|reflexivity]]]; [vm_compute; reflexivity|right; left; reflexivity|reflexivity]. Qed.
Print Assumptions C63_thin_row_refuted.
(** Refuted: "a table is set where it was": overlapping the line before it, or close to a table
    before it, it is set lower, and a table that reaches below its container higher. *)
Theorem C63_table_moved_refuted :
  (exists container bs vs ys y, parse_spacing container bs = Some vs /\ (forall b, In b bs -> settable true b) /\ orientation bs = true /\
     flows (ry0 container) bs vs ys /\ nth_error ys 1 = Some y /\ y == 46 /\ (exists b, nth_error bs 1 = Some b /\ v_end true b == 41)) /\
  (exists container bs vs ys y, parse_spacing container bs = Some vs /\ (forall b, In b bs -> settable true b) /\ orientation bs = true /\
     flows (ry0 container) bs vs ys /\ nth_error ys 0 = Some y /\ y == 100 /\ (exists b, nth_error bs 0 = Some b /\ v_end true b == 110)).
Proof.
  split.
  - exists (mkRect 0 0 100 100), [VTable (mkRect 0 0 100 20) (Some 0) [20]; VTable (mkRect 0 16 100 41) (Some 0) [25]].
    do 3 eexists. split; [vm_compute; reflexivity|]. split.
    { intros b [<-|[<-|[]]]; cbn; reflexivity. }
    split; [reflexivity|]. split; [apply fl_table; apply fl_table; constructor|]. split; [cbn [nth_error]; reflexivity|]. split.
    + reflexivity.
    + eexists. split; [reflexivity|]. reflexivity.
  - exists (mkRect 0 0 100 100), [VTable (mkRect 0 40 100 110) (Some 0) [70]].
    do 3 eexists. split; [vm_compute; reflexivity|]. split.
    { intros b [<-|[]]; cbn; reflexivity. }
    split; [reflexivity|]. split; [apply fl_table; constructor|]. split; [cbn [nth_error]; reflexivity|]. split.
    + reflexivity.
    + eexists. split; [reflexivity|]. reflexivity.
Qed.
Print Assumptions C63_table_moved_refuted.

(** A page with a paragraph of two rows, a table, another table and a line. *)
Definition ex_bs : list vblock :=
  [VText (mkRect 10 20 100 50) [tline 10 20 100 30; tline 10 40 60 50];
   VTable (mkRect 10 60 100 80) (Some 1) [10; 10];
   VTable (mkRect 10 90 100 101) (Some 1) [11];
   VText (mkRect 10 120 100 130) [tline 10 120 100 130]].
Definition ex_page : rect := mkRect 5 5 200 300.
Lemma ex_settable b : In b ex_bs -> settable true b.
Proof.
  intros [<-|[<-|[<-|[<-|[]]]]].
  - split; [reflexivity|]. exists 2%nat. split; [apply rc_next; [reflexivity|constructor]|left; lia].
  - cbn. reflexivity.
  - cbn. reflexivity.
  - split; [reflexivity|]. exists 1%nat. split; [constructor|]. right. do 2 eexists. split; [reflexivity|]. reflexivity.
Qed.
Example C63_ex : orientation ex_bs = true /\ tables_fit true ex_page false (ry0 ex_page) ex_bs /\
  exists vs ys zs es, parse_spacing ex_page ex_bs = Some vs /\ flows (ry0 ex_page) ex_bs vs ys /\ written false (ry0 ex_page) ex_bs vs zs /\ budget 0 ex_bs vs es /\
    Forall2 Qeq ys [50; 80; 101; 130] /\ Forall2 Qeq zs [50; 80; 101; 130].
Proof.
  split; [reflexivity|]. split; [cbn; repeat split; unfold Qle; cbn; lia|].
  do 4 eexists. split; [vm_compute; reflexivity|].
  assert (R : row_count [tline 10 20 100 30; tline 10 40 60 50] 2) by (apply rc_next; [reflexivity|constructor]).
  split; [eapply (fl_text _ _ _ 2 _ _ _ _ R); eapply fl_table; eapply fl_table; eapply (fl_text _ _ _ 1 _ _ _ _ (rc_one _)); constructor|].
  split.
  { eapply (wr_text _ _ _ _ 2 _ _ _ _ R). eapply (wr_table _ _ _ _ _ _ 0); [right; split; [reflexivity|split; reflexivity]|].
    eapply (wr_table _ _ _ _ _ _ 9); [left; split; [exact I|]; split; [vm_compute; discriminate|]; split; [reflexivity|exists 90%Z; reflexivity]|].
    eapply (wr_text _ _ _ _ 1 _ _ _ _ (rc_one _)). constructor. }
  split; [eapply (bu_text _ _ _ 2 _ _ _ _ R); eapply bu_table; eapply bu_table; eapply (bu_text _ _ _ 1 _ _ _ _ (rc_one _)); constructor|].
  split; repeat constructor.
Qed.
