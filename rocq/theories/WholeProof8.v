(** A page of paragraphs is parsed to its paragraphs. *)
From Verif Require GeomProof TextProof.
From Verif Require Import AssignSpec AssignProof PySort FlowModel FlowSpec LayoutSpec LayoutProps TreeSpec TreeProof TreeProof3 TreeProof5 TreeProps.
From Verif Require Import CleanSpec CleanProof2 CleanProps.
From Verif Require Import CleanModel CleanSpec FlowModel FlowSpec LayoutModel WholeModel WholeSpec.
From Verif Require Import WholeProof WholeProof2 WholeProof3 WholeProof4 WholeProof5 WholeProof6 WholeProof7.
From Verif Require DocxModel PageModel ShapeModel.
From Coq Require Import Lia Lqa Permutation Sorting.Sorted.
Notation length := List.length.
Open Scope Q_scope.

(** What becomes of a page of paragraphs and pictures, once its clean-up is known. *)
Lemma page_stacked order rorder ids pm fuel r ts fls out : (forall l, Permutation l (order l)) -> 0 < p_float_layout pm ->
  r_shapes r = [] -> Forall paragraph ts -> ForallOrdPairs other_block ts -> top_down (map ln_bbox (lines_in ts)) ->
  clean_up order (page_box r) (p_image_gap pm) (p_line_overlap pm) (p_line_merging pm) (r_blocks r) = Some (fls, out) -> Permutation (lines_in out) (lines_in ts) ->
  (forall b, In b out -> b_img b = false /\ box (b_bbox b) /\ b_lines b <> [] /\ StronglySorted beneath (b_lines b) /\ exists m, b_bbox b = hull m /\ forall l, In l m <-> In l (b_lines b)) ->
  (forall a b rest, Permutation out (a :: b :: rest) -> ~ beside (b_bbox a) (b_bbox b)) ->
  (forall c, clean_page order pm r = Some c -> one_column (PageModel.working_bbox (r_width r) (r_height r) (page_margin pm r c)) ts) ->
  let ks := flat_map (fun f : option (nat * rect) => match f with Some (k, _) => [k] | None => [] end) fls in
  exists c ss, clean_page order pm r = Some c /\ parse_page order rorder ids pm (S fuel) r = Ok (mkSPage (page_section r (page_margin pm r c)) ss ks) /\
    space_layout order pm (PageModel.working_bbox (r_width r) (r_height r) (page_margin pm r c)) (map LText (map para_block ts)) = Some ss /\ Forall2 spaced (map para_block ts) ss /\
    c_shapes c = [] /\ Permutation (lines_in (c_blocks c)) (lines_in ts) /\
    forall b, In b (c_blocks c) -> box (b_bbox b) /\ b_lines b <> [] /\ exists m, b_bbox b = hull m /\ forall l, In l m <-> In l (b_lines b).
Proof.
  intros Ho Tf Sh Pa Ot Td Cu Pl Bo Nb Oc ks. apply top_down_lines in Td.
  assert (Cl : clean_page order pm r = Some (mkClean ks (sort_blocks out) [])) by (unfold clean_page; rewrite Cu, Sh; reflexivity).
  unfold parse_page. rewrite Cl. cbn [c_blocks c_shapes c_floats]. unfold page_shapes. cbn [c_shapes c_blocks List.length seq]. unfold categorise. cbn [filter].
  specialize (Oc _ Cl). set (area := PageModel.working_bbox (r_width r) (r_height r) (page_margin pm r (mkClean ks (sort_blocks out) []))) in *.
  pose proof (sort_blocks_perm out) as Ps.
  assert (FL : forall l, In l (lines_in ts) -> flat_line l).
  { intros l Hl. apply in_flat_map in Hl. destruct Hl as (t & Ht & Hl). rewrite Forall_forall in Pa. destruct (Pa t Ht) as (_ & _ & _ & _ & H). exact (H l Hl). }
  assert (Fo : forall b l, In b out -> In l (b_lines b) -> flat_line l) by (intros b l Hb Hl; apply FL; eapply Permutation_in; [exact Pl|]; apply in_flat_map; exists b; split; assumption).
  rewrite (parse_stacked order rorder ids (layout_settings pm) fuel area (sort_blocks out) ts Ho Tf Pa Ot Td); [| | | |exact Oc].
  - cbn [bind snd]. rewrite <- map_map.
    destruct (space_texts order pm area (map para_block ts) Ho) as (ss & Es & F).
    { intros u Hu. apply in_map_iff in Hu. destruct Hu as (t & <- & Ht). rewrite Forall_forall in Pa. destruct (Pa t Ht) as (_ & _ & Ne & _ & H). split; [|exact Ne].
      cbn [b_bbox para_block]. apply (hull_facts (b_lines t) Ne). intros l Hl. destruct (H l Hl) as ((P & D & _) & _). split; assumption. }
    rewrite Es. eexists. exists ss. split; [reflexivity|]. split; [reflexivity|]. split; [exact Es|]. split; [exact F|]. split; [reflexivity|]. cbn [c_blocks]. split.
    + eapply Permutation_trans; [|exact Pl]. unfold lines_in. apply Permutation_flat_map. apply Permutation_sym, Ps.
    + intros b Hb. destruct (Bo b) as (_ & B1 & B2 & _ & B4); [eapply Permutation_in; [apply Permutation_sym, Ps|exact Hb]|]. split; [exact B1|split; [exact B2|exact B4]].
  - eapply Permutation_trans; [|exact Pl]. unfold lines_in. apply Permutation_flat_map. apply Permutation_sym, Ps.
  - intros b Hb. destruct (Bo b) as (_ & B1 & B2 & B3 & _); [eapply Permutation_in; [apply Permutation_sym, Ps|exact Hb]|]. split; [exact B1|split; [exact B2|exact B3]].
  - intros i (a & b & Ha & Hb & IL). rewrite nth_error_map in Ha, Hb. destruct (nth_error (sort_blocks out) i) as [x|] eqn:Ex; [|discriminate Ha]. destruct (nth_error (sort_blocks out) (S i)) as [y|] eqn:Ey; [|discriminate Hb]. injection Ha as <-. injection Hb as <-.
    assert (Sp : exists rest, Permutation (sort_blocks out) (x :: y :: rest)).
    { clear - Ex Ey. revert i Ex Ey. induction (sort_blocks out) as [|z l IH]; intros i Ex Ey; [destruct i; discriminate|]. destruct i as [|i].
      - injection Ex as ->. destruct l as [|w l]; [discriminate Ey|]. injection Ey as ->. exists l. apply Permutation_refl.
      - destruct (IH i Ex Ey) as (rest & P). exists (z :: rest). eapply Permutation_trans; [apply perm_skip, P|]. eapply Permutation_trans; [apply perm_swap|]. apply perm_skip, perm_swap. }
    destruct Sp as (rest & Sp). apply (Nb x y rest); [eapply Permutation_trans; [exact Ps|exact Sp]|].
    assert (Hx : In x out) by (eapply Permutation_in; [apply Permutation_sym, Ps|]; eapply nth_error_In, Ex). assert (Hy : In y out) by (eapply Permutation_in; [apply Permutation_sym, Ps|]; eapply nth_error_In, Ey).
    destruct IL as [I1 I2]. cbn [f_elem f_box e_dir b_elem] in I1, I2. rewrite (flat_dir x) in I1, I2 by (intros l Hl; apply (Fo x l Hx Hl)). change (is_horizontal LEFT_RIGHT) with true in *. cbn [lo hi] in I1, I2.
    destruct (Bo x Hx) as (_ & ((_ & Ax) & _) & _). destruct (Bo y Hy) as (_ & ((_ & Ay) & _) & _).
    exists (qmax (ry0 (b_bbox x)) (ry0 (b_bbox y))). unfold qmax. qcases; split; split; lra.
Qed.
(** What becomes of a page of paragraphs. *)
Lemma page_laid order rorder ids pm fuel r ts : (forall l, Permutation l (order l)) -> 1 # 1000000 < p_line_overlap pm -> 0 < p_float_layout pm ->
  paragraph_page r ts -> (forall c, clean_page order pm r = Some c -> one_column (PageModel.working_bbox (r_width r) (r_height r) (page_margin pm r c)) ts) ->
  exists c ss, clean_page order pm r = Some c /\ parse_page order rorder ids pm (S fuel) r = Ok (mkSPage (page_section r (page_margin pm r c)) ss []) /\
    space_layout order pm (PageModel.working_bbox (r_width r) (r_height r) (page_margin pm r c)) (map LText (map para_block ts)) = Some ss /\ Forall2 spaced (map para_block ts) ss /\
    c_shapes c = [] /\ Permutation (lines_in (c_blocks c)) (lines_in ts) /\
    forall b, In b (c_blocks c) -> box (b_bbox b) /\ b_lines b <> [] /\ exists m, b_bbox b = hull m /\ forall l, In l m <-> In l (b_lines b).
Proof.
  intros Ho T Tf Pp Oc. destruct (clean_paragraphs order (p_image_gap pm) (p_line_overlap pm) (p_line_merging pm) r ts Ho T Pp) as (out & Cu & Pl & Bo & Nb).
  pose proof Pp as (Sh & _ & _ & _ & Pa & Ot & Td).
  exact (page_stacked order rorder ids pm fuel r ts [] out Ho Tf Sh Pa Ot Td Cu Pl Bo Nb Oc).
Qed.
(** The same with pictures. *)
Lemma page_pictured order rorder ids pm fuel r ts fs : (forall l, Permutation l (order l)) -> 1 # 1000000 < p_line_overlap pm -> 0 < p_float_layout pm -> 0 <= p_image_gap pm ->
  picture_page (p_image_gap pm) r ts fs -> (forall c, clean_page order pm r = Some c -> one_column (PageModel.working_bbox (r_width r) (r_height r) (page_margin pm r c)) ts) ->
  exists c ss ks fl, clean_page order pm r = Some c /\ parse_page order rorder ids pm (S fuel) r = Ok (mkSPage (page_section r (page_margin pm r c)) ss ks) /\
    Forall2 spaced (map para_block ts) ss /\ Permutation fl fs /\ Forall2 is_picture fl ks.
Proof.
  intros Ho T Tf Gp Pp Oc. destruct (clean_pictures order (p_image_gap pm) (p_line_overlap pm) (p_line_merging pm) r ts fs Ho T Gp Pp) as (fl & out & Cu & Pf & Pl & Bo & Nb).
  pose proof Pp as (Sh & _ & _ & _ & Pa & Ot & Td & (_ & On & _)). apply Forall_app in Pa. destruct Pa as (Pa & Pb).
  destruct (page_stacked order rorder ids pm fuel r ts _ out Ho Tf Sh Pa Ot Td Cu Pl Bo Nb Oc) as (c & ss & Cl & E & _ & F & _).
  eexists c, ss, _, fl. split; [exact Cl|]. split; [exact E|]. split; [exact F|]. split; [exact Pf|].
  assert (W : forall f, In f fl -> wrapped_image f).
  { intros f Hf. apply (Permutation_in _ Pf) in Hf. rewrite Forall_forall in Pb. apply (Pb f Hf). apply (On f Hf). }
  clear - W. induction fl as [|f fl IH]; [constructor|]. destruct (W f (or_introl eq_refl)) as (l & k & q & El & Es). cbn [map flat_map]. unfold image_of at 1. rewrite El, Es. cbn [app].
  constructor; [exists l, q; split; assumption|]. apply IH. intros g Hg. apply W. right. exact Hg.
Qed.
