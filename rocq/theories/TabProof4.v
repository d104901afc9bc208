(** The cells of the table are filled and parsed. *)
From Verif Require GeomProof TableProps TableSpec.
From Verif Require Import AssignSpec AssignProof InterProof GraphProof TextProof PySort FlowModel FlowSpec FlowProof FlowProof2 FlowProps LayoutSpec LayoutProof.
From Verif Require Import CleanSpec CleanProof CleanProof2 CleanProof3 CleanProps.
From Verif Require Import WholeSpec.
From Verif Require Import CleanModel CleanSpec FlowModel FlowSpec LayoutModel WholeModel WholeSpec WholeProof WholeProof2 WholeProof3 WholeProof4 WholeProof5.
From Verif Require Import TabProof TabProof2 TabProof3.
From Coq Require Import Lia Lqa Permutation Sorting.Sorted.
Notation length := List.length.
Open Scope Q_scope.

Lemma tag_same ids bs : (forall b l, In b bs -> In l (b_lines b) -> ln_pid l <> None) -> (forall b, In b bs -> b_img b = false) -> forall k, tag ids k (map of_block (map tb bs)) = map FText bs.
Proof.
  induction bs as [|b r IH]; intros H G k; [reflexivity|]. cbn [map of_block tb tag]. rewrite (IH (fun x l Hx => H x l (or_intror Hx)) (fun x Hx => G x (or_intror Hx))). f_equal. cbn [b_img b_bbox b_lines].
  assert (E : map (set_pid (ids k)) (b_lines b) = b_lines b).
  { pose proof (fun l => H b l (or_introl eq_refl)) as Hl. clear - Hl. induction (b_lines b) as [|l t IH]; [reflexivity|]. cbn [map]. rewrite IH by (intros x Hx; apply Hl; right; exact Hx). f_equal. unfold set_pid. destruct (ln_pid l) eqn:E; [reflexivity|]. destruct (Hl l (or_introl eq_refl) E). }
  rewrite E. pose proof (G b (or_introl eq_refl)) as Gb. destruct b as [im bb ls]. cbn [b_img b_bbox b_lines] in *. subst. reflexivity.
Qed.
Lemma back_texts ts bs : flat_map (back ts) (map FText bs) = map LText bs.
Proof. induction bs as [|b r IH]; [reflexivity|]. cbn [map flat_map back app]. rewrite IH. reflexivity. Qed.

(** No two of the blocks beside each other. *)
Lemma vsep_in_line bs : (forall b l, In b bs -> In l (b_lines b) -> flat_line l) -> (forall b, In b bs -> proper (b_bbox b)) -> pairwise vsep bs -> forall i, ~ in_line_at (map FText bs) i.
Proof.
  intros Fl Pb V i (a & b & Ha & Hb & IL). rewrite nth_error_map in Ha, Hb. destruct (nth_error bs i) as [x|] eqn:Ex; [|discriminate Ha]. destruct (nth_error bs (S i)) as [y|] eqn:Ey; [|discriminate Hb]. injection Ha as <-. injection Hb as <-.
  assert (S : vsep x y).
  { clear - V Ex Ey. revert i Ex Ey. induction V as [|z l F V IH]; intros i Ex Ey; [destruct i; discriminate|]. destruct i as [|i]; [injection Ex as ->; apply F; change (nth_error l 0 = Some y) in Ey; eapply nth_error_In, Ey|apply (IH i Ex Ey)]. }
  destruct IL as [I1 I2]. cbn [f_elem f_box e_dir b_elem] in I1, I2. rewrite (flat_dir x) in I1, I2 by (intros l Hl; apply (Fl x l); [eapply nth_error_In, Ex|exact Hl]). change (is_horizontal LEFT_RIGHT) with true in *. cbn [lo hi] in I1, I2. unfold vsep in S. lra.
Qed.

Definition done (o : option bcell) (ts : list tblock) : lcell := (o, no_shapes, map (fun t => LText (para_block t)) ts).
(** The cell [o] of a table whose blocks are [l] gets the lines of the paragraphs [ts]. *)
Definition cell_ready (l : list block) (o : option bcell) (ts : list tblock) : Prop :=
  Forall paragraph ts /\ ForallOrdPairs other_block ts /\ StronglySorted beneath (lines_in ts) /\
  match o with
  | None => ts = []
  | Some i => rect_bool (bc_bbox i) = true /\ exists bs, flat_map (assign_cell (bc_bbox i)) l = map tb bs /\ Permutation (lines_in bs) (lines_in ts) /\ pairwise vsep bs /\ forall b, In b bs -> hulled b
  end.
Lemma stack_part ts bs b : StronglySorted beneath (lines_in ts) -> Permutation (lines_in bs) (lines_in ts) -> In b bs -> stackable (b_lines b).
Proof.
  intros S P Hb. apply in_split in Hb. destruct Hb as (x & y & ->). unfold stackable. apply (sub_sorted beneath (lines_in ts) (b_lines b) (lines_in (x ++ y))); [|exact S].
  eapply Permutation_trans; [apply Permutation_sym, P|]. rewrite !lines_in_app. change (lines_in (b :: y)) with (b_lines b ++ lines_in y). rewrite !app_assoc. apply Permutation_app_tail, Permutation_app_comm.
Qed.
Section Cells.
Variable order : list nat -> list nat.
Variable rorder : list (Q * Q) -> list (Q * Q).
Variable ids : nat -> nat.
Variable st : settings.
Hypothesis Ho : forall l, Permutation l (order l).
Hypothesis T : 0 < flow_tol st.
Variable l : list block.

Definition contents_of (os : list (option bcell)) : list (list block) := map (fun o => if rect_bool (info_box o) then flat_map (assign_cell (info_box o)) l else []) os.
Lemma filled os tss : Forall2 (cell_ready l) os tss -> forall k, exists lcs k', fill_cells ids k [] os (contents_of os) = (lcs, k') /\
  forall fuel w, exists n, parse_cells (layout_parse order rorder ids st (S fuel) false) w lcs = Ok (LayoutModel.mkW (w_shapes w) n, map (fun p => done (fst p) (snd p)) (combine os tss)).
Proof.
  intros F. induction F as [|o ts os tss C F IH]; intros k; [exists [], k; split; [reflexivity|]; intros fuel [sh n]; exists n; reflexivity|].
  unfold contents_of. cbn [map fill_cells hd tl]. fold (contents_of os).
  destruct C as (Pa & Ot & St & C).
  set (here := if rect_bool (info_box o) then flat_map (assign_cell (info_box o)) l else []).
  destruct (IH (k + length here)%nat) as (lcs & k' & E & P). rewrite E. eexists. eexists. split; [reflexivity|]. intros fuel w. cbn [combine map parse_cells lc_info lc_blocks lc_shapes fst snd].
  destruct o as [i|].
  - destruct C as (Rb & bs & A & Pl & V & H). cbn [info_box] in here. unfold here. rewrite Rb, A.
    rewrite Forall_forall in Pa.
    assert (Fts : forall x, In x (lines_in ts) -> flat_line x /\ ln_pid x <> None).
    { intros x Hx. apply in_flat_map in Hx. destruct Hx as (t & Ht & Hx). destruct (Pa t Ht) as (_ & _ & _ & (p & Hp) & H'). split; [exact (H' x Hx)|]. rewrite (Hp x Hx). discriminate. }
    assert (Fb : forall b x, In b bs -> In x (b_lines b) -> flat_line x /\ ln_pid x <> None) by (intros b x Hb Hx; apply Fts; eapply Permutation_in; [exact Pl|]; apply in_flat_map; exists b; split; assumption).
    rewrite (tag_same ids bs (fun b x Hb Hx => proj2 (Fb b x Hb Hx)) (fun b Hb => proj1 (H b Hb))), back_texts.
    assert (Pb : forall b, In b bs -> proper (b_bbox b)).
    { intros b Hb. apply (hulled_box b (H b Hb)). intros x Hx. destruct (proj1 (Fb b x Hb Hx)) as ((P1 & D & _) & _). split; assumption. }
    rewrite (parse_cell_texts order rorder ids st fuel w (working_box i) bs ts Ho T); [|rewrite Forall_forall; exact Pa|exact Ot|exact St|exact Pl| |].
    + cbn [bind fst snd]. destruct (P fuel (LayoutModel.mkW (w_shapes w) (w_next w + length ts))) as (n & En). rewrite En. cbn [bind fst snd w_shapes]. exists n. unfold done at 1. reflexivity.
    + intros b Hb. split; [apply Pb, Hb|]. split; [apply (H b Hb)|]. apply (stack_part ts bs b St Pl Hb).
    + apply vsep_in_line; [intros b x Hb Hx; apply (Fb b x Hb Hx)|exact Pb|exact V].
  - subst ts. unfold here. cbn [info_box]. change (rect_bool rect0) with false. cbn [bind fst snd flat_map map tag]. destruct (P fuel w) as (n & En). rewrite En. cbn [bind fst snd]. exists n. reflexivity.
Qed.
End Cells.
