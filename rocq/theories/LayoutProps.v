(** C66: the recursive layout parsing as a whole. *)
From Verif Require GeomProof TableProps ShapeProof ShapeProps.
From Verif Require Import TableSpec LayoutSpec LayoutProof LayoutFormat LayoutProof2 LayoutProof3 LayoutProof4 LayoutProof5 FlowProof FlowProof2 FlowProps AssignProof BorderProof3.
From Coq Require Import List Permutation Sorted Lia Lqa Relations.
Import ListNotations.
Open Scope Q_scope.

(* ------------------------------------------------------------------ *)
(** * Nothing is made up *)
Lemma parse_all order rorder ids st fuel top w box bs ss w' out : (forall l, Permutation l (order l)) ->
  layout_parse order rorder ids st fuel top w box bs ss = Ok (w', out) ->
  (forall g, In g (text_of out) -> from_page (text_of bs) (w_shapes w) g) /\ Forall2 same_but_meaning (w_shapes w) (w_shapes w').
Proof.
  intros Ho E. set (A := members ss ++ flat_map (fun c => members (snd c)) (flat_map all_cells bs)).
  destruct (parse_ok order rorder ids st (from_page (text_of bs) (w_shapes w)) (fun c => incl (members (snd c)) A) A (w_shapes w)) with (fuel := fuel) (top := top) (w := w) (box := box) (bs := bs) (ss := ss) (w' := w') (out := out) as [H1 H2]; try assumption.
  - intros i. apply incl_nil_l.
  - intros i l H _ x y u v Hu Hv k Hk. unfold members in Hk. cbn [snd ls_all ls_lines ls_marks] in Hk. rewrite !in_app_iff in Hk. apply H. destruct Hk as [Hk|[Hk|Hk]]; auto.
  - intros c H. exact H.
  - intros g s0 f (old & new & A1 & A2 & A3) (k & _ & L & F). cbn [fst snd] in *. exists old, (new ++ [f]). split; [exact A1|]. split; [cbn [snd]; rewrite A2, app_assoc; reflexivity|].
    intros x Hx. apply in_app_or in Hx. destruct Hx as [Hx|[<-|[]]]; [apply A3; exact Hx|]. exists (nth k (w_shapes w) empty_stroke). split; [apply nth_In; exact L|exact F].
  - apply alike_refl.
  - apply incl_appl, incl_refl.
  - intros b Hb. split.
    + intros [g s0] Hg. exists s0, []. split; [unfold text_of; apply in_flat_map; exists b; auto|]. split; [rewrite app_nil_r; reflexivity|intros f []].
    + intros c Hc k Hk. apply in_or_app. right. apply in_flat_map. exists c. split; [apply in_flat_map; exists b; auto|exact Hk].
  - split; [|exact H1]. intros g Hg. apply in_flat_map in Hg. destruct Hg as (b & Hb & Hg). apply (H2 b Hb). exact Hg.
Qed.
(** Whatever the page, the shapes, the settings and the depth: each character and picture of the
    parsed layout, in tables of any depth, was on the page, and has the formats it had there, followed by ones
    that shapes of the page have given to it (in the colour of the shape; a link leads where the link of the page did). *)
Theorem C66_nothing_invented order rorder ids st fuel top w box bs ss w' out : (forall l, Permutation l (order l)) ->
  layout_parse order rorder ids st fuel top w box bs ss = Ok (w', out) -> forall g, In g (text_of out) -> from_page (text_of bs) (w_shapes w) g.
Proof. intros Ho E. eapply parse_all; eauto. Qed.
Print Assumptions C66_nothing_invented.
(** Shapes keep place, colour and order: at most they are given a meaning (border, shading, format of text). *)
Theorem C66_shapes_kept order rorder ids st fuel top w box bs ss w' out : (forall l, Permutation l (order l)) ->
  layout_parse order rorder ids st fuel top w box bs ss = Ok (w', out) -> Forall2 same_but_meaning (w_shapes w) (w_shapes w').
Proof. intros Ho E. eapply parse_all; eauto. Qed.
Print Assumptions C66_shapes_kept.
Lemma cell_in bs c : cell_of bs c -> In (fst c) (flat_map all_cells bs).
Proof.
  induction 1 as [bs bb cs c H1 H2|bs bb cs c c' H1 H2 H IH].
  - apply in_flat_map. exists (LTable bb cs). split; [exact H1|]. cbn [all_cells]. apply in_flat_map. exists c. split; [exact H2|left; reflexivity].
  - apply in_flat_map. exists (LTable bb cs). split; [exact H1|]. cbn [all_cells]. apply in_flat_map. exists c. split; [exact H2|right; exact IH].
Qed.
(** From blocks of text: each shape a cell (at any depth) is given is one of those of the page, and
    meets the box of the cell. *)
Theorem C66_cell_shapes order rorder ids st fuel top w box bs ss w' out c k : (forall l, Permutation l (order l)) -> plain_blocks bs ->
  layout_parse order rorder ids st fuel top w box bs ss = Ok (w', out) -> cell_of out c -> In k (members (lc_shapes c)) ->
  In k (members ss) /\ rect_bool (rinter (info_box (lc_info c)) (sh_bbox (nth k (w_shapes w) empty_stroke))) = true.
Proof.
  intros Ho P E Hc Hk.
  destruct (parse_ok order rorder ids st (fun g => True)
    (fun c => forall k, In k (members (snd c)) -> In k (members ss) /\ rect_bool (rinter (info_box (fst c)) (sh_bbox (nth k (w_shapes w) empty_stroke))) = true)
    (members ss) (w_shapes w)) with (fuel := fuel) (top := top) (w := w) (box := box) (bs := bs) (ss := ss) (w' := w') (out := out) as [H1 H2]; try assumption.
  - intros i j [].
  - intros i l I H x y u v Hu Hv j Hj. unfold members in Hj. cbn [ls_all ls_lines ls_marks snd fst] in *. rewrite !in_app_iff in Hj. assert (Hl : In j l) by (destruct Hj as [Hj|[Hj|Hj]]; auto). auto.
  - intros x H j Hj. apply H. exact Hj.
  - auto.
  - apply alike_refl.
  - apply incl_refl.
  - intros b Hb. split; [auto|]. specialize (P b Hb). destruct b; [intros x []|discriminate].
  - apply cell_in in Hc. apply in_flat_map in Hc. destruct Hc as (b & Hb & Hc). exact (proj2 (H2 b Hb) _ Hc k Hk).
Qed.
Print Assumptions C66_cell_shapes.

(* ------------------------------------------------------------------ *)
(** * Plain text *)
(** Text that runs on, one block above the other, no strokes that could be borders and nothing shaded,
    is left as it is: no table is made of it, no character or picture gets lost or doubled (formats may be
    added), no exception is raised - in a cell, or on a page with a line crossing the middle which is neither
    above nor below all that does not. *)
Theorem C66_plain_page order rorder ids st fuel (top : bool) w page ts ss : (forall l, Permutation l (order l)) ->
  (forall t, In t ts -> proper (b_bbox t) /\ b_lines t <> [] /\ (forall l, In l (b_lines t) -> box (ln_bbox l) /\ good_line l) /\
     flowing order (flow_tol st) (separate st) (FText t) /\ ~ shaded (map shade_of (shapes_at w (ls_fills ss))) (FText t)) ->
  (forall i, ~ in_line_at (map FText ts) i) -> ls_strokes ss = [] ->
  (top = true -> exists e, let elems := map ln_bbox (flat_map b_lines ts) ++ map sh_bbox (shapes_at w (ls_all ss)) in
     (forall x, In x elems -> box x) /\ In e elems /\ spanning page e /\ ~ above_columns page elems e /\ ~ below_columns page elems e) ->
  exists w' out, layout_parse order rorder ids st (S fuel) top w page (map LText ts) ss = Ok (w', out) /\ plain_blocks out /\
    (exists text, Permutation (text_of (map LText ts)) text /\ only_styles_added text (text_of out)) /\ Forall2 same_but_meaning (w_shapes w) (w_shapes w').
Proof.
  intros Ho H N S0 T.
  assert (F : forall k, flat k (map LText ts) = map FText ts) by (clear; induction ts as [|t r IH]; intros k; [reflexivity|cbn [map flat]; rewrite IH; reflexivity]).
  assert (Tb : tabs (map LText ts) = []) by (clear; unfold tabs; induction ts as [|t r IH]; [reflexivity|exact IH]).
  assert (L : lattice order st w ss = Ok (w, [])).
  { unfold lattice. rewrite S0. destruct (ls_all ss); [reflexivity|]. cbn [shapes_at map]. reflexivity. }
  assert (Dec : forall b, In b (map FText ts) -> exists t, b = FText t /\ In t ts) by (intros b Hb; apply in_map_iff in Hb; destruct Hb as (t & <- & Ht); eauto).
  assert (St : stream order rorder st w page (map LText ts) ss = Ok (w, [])).
  { unfold stream. rewrite F. rewrite (C65_plain_text order); [reflexivity|exact Ho| | |exact N].
    - intros b Hb. destruct (Dec b Hb) as (t & -> & Ht). destruct (H t Ht) as (P & Ne & B & _). split; [exact P|]. cbn [sub_lines f_box]. unfold sub_lines.
      destruct (b_lines t) as [|l r] eqn:El; [congruence|]. intros K. assert (X : In l (filter ln_bool (l :: r))).
      { apply filter_In. split; [left; reflexivity|]. destruct (B l (or_introl eq_refl)) as [[Pl _] _]. unfold ln_bool. apply GeomProof.proper_truthy. exact Pl. }
      rewrite K in X. destruct X.
    - intros b Hb. destruct (Dec b Hb) as (t & -> & Ht). destruct (H t Ht) as (_ & _ & _ & (t' & E1 & E2) & Ns). split; [|exact Ns].
      intros (t'' & E3 & E4). injection E1 as <-. injection E3 as <-. congruence. }
  assert (FP : flow_page (map FText ts)).
  { split; [intros b Hb|intros b l Hb Hl]; destruct (Dec b Hb) as (t & -> & Ht); destruct (H t Ht) as (P & _ & B & _); [exact P|apply B; exact Hl]. }
  destruct (C64_conserved order (fun k => ids (w_next w + k)%nat) (flow_tol st) (separate st) (map FText ts) Ho FP) as (o & Eo & Po & _ & To & _).
  assert (Lv : level order rorder ids st top w page (map LText ts) ss = Ok (text_format (mkW (w_shapes w) (w_next w + List.length o)) ss (flat_map (back []) o))).
  { unfold level. assert (Lt : (if top then bind (layout_table w page (map LText ts) ss) (fun p => place_tables ids (fst p) (map LText ts) ss (snd p)) else Ok (w, map LText ts, ss)) = Ok (w, map LText ts, ss)).
    { destruct top; [|reflexivity]. destruct (T eq_refl) as (e & B & Ie & Sp & Na & Nb). cbv zeta in *. unfold layout_table.
      assert (Ls : flat_map lines_of (map LText ts) = flat_map b_lines ts) by (clear; induction ts as [|t r IH]; [reflexivity|cbn [map flat_map]; rewrite IH; reflexivity]).
      rewrite Ls. set (el := map ln_bbox (flat_map b_lines ts) ++ map sh_bbox (shapes_at w (ls_all ss))) in *.
      assert (Fe : filter rect_bool el = el) by (apply TextProof.filter_all; intros x Hx; apply GeomProof.proper_truthy; apply B; exact Hx). rewrite Fe.
      assert (X : page_layout page el = None); [|rewrite X; reflexivity].
      destruct (page_layout page el) eqn:Ep; [|reflexivity]. exfalso.
      assert (Cx : exists c, In c el /\ in_column page c).
      { clear - Na Ie. destruct (existsb (fun c => qlt (rx1 c) (center page) || qlt (center page) (rx0 c)) el) eqn:Ex.
        - apply existsb_exists in Ex. destruct Ex as (c & Hc & K). exists c. split; [exact Hc|]. apply orb_true_iff in K. rewrite !qlt_iff in K. exact K.
        - exfalso. apply Na. intros c Hc K. assert (Y : existsb (fun c => qlt (rx1 c) (center page) || qlt (center page) (rx0 c)) el = true); [|congruence].
          apply existsb_exists. exists c. split; [exact Hc|]. apply orb_true_iff. rewrite !qlt_iff. exact K. }
      assert (W := proj1 (TableProps.C55_when page el (fun x Hx => B x Hx) Cx)). rewrite Ep in W. destruct (W ltac:(discriminate) e Ie Sp); auto. }
    rewrite Lt. cbn [bind]. rewrite L. cbn [bind fst snd place_tables]. rewrite St. cbn [bind fst snd place_tables]. rewrite F, Eo, Tb. reflexivity. }
  assert (Nt : forall b, In b o -> exists t, b = FText t).
  { intros [t|k bb] Hb; [eauto|]. exfalso. assert (X : In (FTable k bb) (map FText ts)) by (apply To; [exists k, bb; reflexivity|exact Hb]). apply in_map_iff in X. destruct X as (t & X & _). discriminate X. }
  assert (PT : forall (o : list lblock) rec w, plain_blocks o -> parse_tables rec w o = Ok (w, o)).
  { clear. induction o as [|b o IH]; intros rec w Nt; [reflexivity|]. destruct b as [t|tb cs]; [|specialize (Nt _ (or_introl eq_refl)); discriminate Nt]. cbn [parse_tables bind fst snd].
    rewrite IH; [reflexivity|]. intros b Hb. apply Nt. right. exact Hb. }
  destruct (text_format (mkW (w_shapes w) (w_next w + List.length o)) ss (flat_map (back []) o)) as [w' out] eqn:Ef.
  assert (Pm : plain_blocks (flat_map (back []) o)) by (intros b Hb; apply in_flat_map in Hb; destruct Hb as (x & Hx & Hb); destruct (Nt x Hx) as (t & ->); destruct Hb as [<-|[]]; reflexivity).
  assert (Gt : good_texts (flat_map (back []) o)).
  { intros t l Ht Hl. apply in_flat_map in Ht. destruct Ht as (x & Hx & Ht). destruct (Nt x Hx) as (t' & ->). destruct Ht as [Ht|[]]. injection Ht as ->.
    assert (Ia : In (anon l) (flat_map (fun b => map anon (f_lines b)) (map FText ts))).
    { eapply Permutation_in; [exact Po|]. apply in_flat_map. exists (FText t). split; [exact Hx|]. apply in_map. exact Hl. }
    apply in_flat_map in Ia. destruct Ia as (b & Hb & Ia). destruct (Dec b Hb) as (t0 & -> & Ht0). apply in_map_iff in Ia. destruct Ia as (l0 & Ea & Hl0). cbn [f_lines] in Hl0.
    destruct (H t0 Ht0) as (_ & _ & B & _). destruct (B l0 Hl0) as [_ G]. clear - Ea G. unfold anon in Ea. injection Ea as E1 E2 E3 E4. unfold good_line in *. rewrite <- E2, <- E3. exact G. }
  pose proof (format_blocks_good _ _ _ _ _ Gt Ef) as F2.
  assert (Po' : plain_blocks out).
  { clear - F2 Pm. induction F2 as [|x y xs ys R F IH]; intros b Hb; [destruct Hb|]. destruct Hb as [<-|Hb]; [|apply IH; [intros z Hz; apply Pm; right; exact Hz|exact Hb]].
    specialize (Pm x (or_introl eq_refl)). destruct R; [discriminate Pm|reflexivity]. }
  assert (E : layout_parse order rorder ids st (S fuel) top w page (map LText ts) ss = Ok (w', out)) by (cbn [layout_parse]; rewrite Lv; cbn [bind fst snd]; apply PT; exact Po').
  exists w', out. split; [exact E|]. split; [exact Po'|]. split; [|eapply parse_all; [exact Ho|exact E]].
  exists (text_of (flat_map (back []) o)). split; [|apply only_formats_text; exact F2]. apply Permutation_sym.
  - assert (Tx : forall (l : list fblock), (forall b, In b l -> exists t, b = FText t) -> text_of (flat_map (back []) l) = flat_map (fun x => styled (ln_spans x)) (flat_map (fun b => map anon (f_lines b)) l)).
    { clear. induction l as [|b l IH]; intros Nt; [reflexivity|]. destruct (Nt b (or_introl eq_refl)) as (t & ->). cbn [flat_map back app]. unfold text_of in *. cbn [flat_map block_text]. rewrite flat_map_app, IH by (intros b Hb; apply Nt; right; exact Hb).
      f_equal. cbn [f_lines]. unfold line_glyphs. clear. induction (b_lines t) as [|x r IH]; [reflexivity|]. cbn [flat_map map]. rewrite IH. reflexivity. }
    assert (Bk : map LText ts = flat_map (back []) (map FText ts)) by (clear; induction ts as [|t r IH]; [reflexivity|cbn [map flat_map back app]; rewrite <- IH; reflexivity]).
    rewrite Bk, !Tx; [|intros b Hb; destruct (Dec b Hb) as (t & -> & _); eauto|exact Nt]. apply Permutation_flat_map. exact Po.
Qed.
Print Assumptions C66_plain_page.

(* ------------------------------------------------------------------ *)
(** * Reading order *)
(** On the page and in each cell, at any depth, the blocks (text and tables) are in reading
    order. *)
Theorem C66_reading_order order rorder ids st fuel top w box bs ss w' out l : (forall l, Permutation l (order l)) ->
  layout_parse order rorder ids st fuel top w box bs ss = Ok (w', out) -> layout_of out l -> in_reading_order l.
Proof. intros Ho. apply parse_sorted. exact Ho. Qed.
Print Assumptions C66_reading_order.

(* ------------------------------------------------------------------ *)
(** * Groups of borders in one another *)
(** Of the groups of strokes only the outermost are parsed as tables: those left are among the
    groups, none in another. *)
Theorem C66_outermost_kept {A} order (box : A -> rect) l : (forall l, Permutation l (order l)) -> (forall a, In a l -> proper (box a)) ->
  incl (remove_overlap order box l) l /\ pairwise (fun a b => ~ one_in_other (box a) (box b)) (remove_overlap order box l).
Proof. intros Ho Hp. apply overlap_kept; assumption. Qed.
Print Assumptions C66_outermost_kept.
(** Each group is linked by a chain of groups in one another to one that stays and that is not smaller. *)
Theorem C66_outermost_chain {A} order (box : A -> rect) l x : (forall l, Permutation l (order l)) -> (forall a, In a l -> proper (box a)) -> In x l ->
  exists k, In k (remove_overlap order box l) /\ clos_refl_trans A (fun a b => In a l /\ In b l /\ one_in_other (box a) (box b)) x k /\ area (box x) <= area (box k).
Proof. intros Ho Hp. apply (overlap_dropped order Ho box l Hp). Qed.
Print Assumptions C66_outermost_chain.
(** If two groups around a third are always in one another, each group lies in one that stays:
    no border is left out. *)
Theorem C66_outermost_covers {A} order (box : A -> rect) l x : (forall l, Permutation l (order l)) -> (forall a, In a l -> proper (box a)) ->
  (forall a b c, In a l -> In b l -> In c l -> Rect.covers (box b) (box a) -> Rect.covers (box c) (box a) -> one_in_other (box b) (box c)) ->
  In x l -> exists k, In k (remove_overlap order box l) /\ Rect.covers (box k) (box x).
Proof. intros Ho Hp L. apply overlap_laminar; assumption. Qed.
Print Assumptions C66_outermost_covers.
(** Otherwise not: a small group in both of two groups that overlap makes the smaller of these
    disappear, though it is not in the other. *)
Theorem C66_outermost_covers_refuted : exists l x : rect, exists ls, (forall a, In a ls -> proper a) /\ ls = [mkRect 40 40 60 60; l; x] /\
  remove_overlap (fun l => l) (fun r => r) ls = [l] /\ ~ Rect.covers l x.
Proof.
  exists (mkRect 0 0 100 100), (mkRect 30 30 120 120). eexists. split; [|split; [reflexivity|split; [vm_compute; reflexivity|]]].
  - intros a Ha. cbn in Ha. repeat (destruct Ha as [<-|Ha]; [split; vm_compute; reflexivity|]). destruct Ha.
  - intros (_ & _ & H & _). vm_compute in H. apply H. reflexivity.
Qed.
Print Assumptions C66_outermost_covers_refuted.
Example C66_outermost_nonvacuous :
  let ls := [mkRect 0 0 100 100; mkRect 10 10 40 40; mkRect 15 15 30 30; mkRect 200 0 300 100] in
  remove_overlap (fun l => l) (fun r => r) ls = [mkRect 0 0 100 100; mkRect 200 0 300 100].
Proof. vm_compute. reflexivity. Qed.

(* ------------------------------------------------------------------ *)
(** * Pages *)
Definition ly_rect (a b c d : Z) : rect := mkRect (inject_Z a) (inject_Z b) (inject_Z c) (inject_Z d).
Definition ly_line (ch : Z) (pid : nat) (a b c d : Z) : line :=
  mkLine (ly_rect a b c d) LEFT_RIGHT [SText (mkTspan [mkChar ch (ly_rect a b c d)] (ly_rect a b c d) [] (mkAttrs 0 10 0 0))] (Some pid) false.
Definition ly_text (a b c d : Z) (ls : list line) : lblock := LText (mkBlk false (ly_rect a b c d) ls).
Definition ly_set : settings := mkSet (1 # 2) 2 6 (1 # 10) 5.
Definition ly_parse (shapes : list shape) (bs : list lblock) (ss : lshapes) :=
  layout_parse (fun l => l) (fun l => l) S ly_set 6 true (mkW shapes 0) (ly_rect 0 0 300 800) bs ss.
Definition ly_letters (bs : list lblock) : list Z := map (fun g => match fst g with GChar c _ => ch_c c | GImage _ _ => 0%Z end) (text_of bs).
(** Text can be written twice: a character that lies wholly in the second cell of a table is in the
    first cell as well, as the whole block is when 95% of it are in that cell. *)
Definition ly_double : list lblock :=
  [ly_text 50 100 250 500 [ly_line 1 1 50 100 240 120; ly_line 2 1 245 100 250 120; ly_line 3 1 50 130 240 150; ly_line 4 1 50 160 240 480; ly_line 5 1 50 485 240 500]].
Theorem C66_once_refuted : exists w out bb c1 c2, ly_parse [] ly_double no_shapes = Ok (w, out) /\ ly_letters ly_double = [1; 2; 3; 4; 5]%Z /\
  out = [LTable bb [c1; c2]] /\ ly_letters (lc_blocks c1) = [1; 3; 4; 5; 2]%Z /\ ly_letters (lc_blocks c2) = [2]%Z.
Proof. do 5 eexists. split; [vm_compute; reflexivity|]. repeat split; vm_compute; reflexivity. Qed.
Print Assumptions C66_once_refuted.
(** Reading order of blocks is not that of lines: of three lines of a block, the second with borders
    around it, the first and the third come before the second. *)
Definition ly_stroke (k : nat) (a b c d : Z) : shape :=
  let s := ShapeModel.new_stroke (inject_Z a) (inject_Z b) (inject_Z c) (inject_Z d) 1 0 R_UNDEFINED in
  mkShape (sh_kind s) (sh_bbox s) (sh_color s) (sh_type s) (sh_x0 s) (sh_y0 s) (sh_x1 s) (sh_y1 s) (sh_width s) k.
Definition ly_borders : list shape := [ly_stroke 1 40 90 260 90; ly_stroke 2 40 130 260 130; ly_stroke 3 40 90 40 130; ly_stroke 4 260 90 260 130].
Definition ly_three : list lblock := [ly_text 50 50 250 210 [ly_line 1 1 50 50 140 60; ly_line 2 1 50 100 250 120; ly_line 3 1 50 200 140 210]].
Theorem C66_line_order_refuted : exists w out t bb c, ly_parse ly_borders ly_three (mkLS [0; 1; 2; 3] [0; 1; 2; 3] [] [0; 1; 2; 3] [])%nat = Ok (w, out) /\
  out = [LText t; LTable bb [c]] /\ ly_letters [LText t] = [1; 3]%Z /\ ly_letters (lc_blocks c) = [2]%Z /\ map sh_type (w_shapes w) = [R_BORDER; R_BORDER; R_BORDER; R_BORDER].
Proof. do 5 eexists. split; [vm_compute; reflexivity|]. repeat split; vm_compute; reflexivity. Qed.
Print Assumptions C66_line_order_refuted.
(** A shaded paragraph becomes a table of one cell - not if the shading is black: then there is no
    table, but the shading is used up all the same. *)
Definition ly_fill (color : Z) : shape := mkShape ShapeModel.KFill (ly_rect 40 90 260 130) color R_UNDEFINED 0 0 0 0 0 1.
Definition ly_shaded : list lblock :=
  [ly_text 50 50 100 60 [ly_line 1 1 50 50 100 60]; ly_text 50 100 250 120 [ly_line 2 2 50 100 250 120]; ly_text 50 200 100 210 [ly_line 3 3 50 200 100 210]].
Theorem C66_black_refuted :
  (exists w out t1 bb i s bs t2, ly_parse [ly_fill 255] ly_shaded (mkLS [0] [] [0] [] [])%nat = Ok (w, out) /\ map sh_type (w_shapes w) = [R_SHADING] /\
     out = [t1; LTable bb [(Some i, s, bs)]; t2] /\ bc_bg i = Some 255%Z /\ ly_letters bs = [2]%Z) /\
  (exists w out, ly_parse [ly_fill 0] ly_shaded (mkLS [0] [] [0] [] [])%nat = Ok (w, out) /\ map sh_type (w_shapes w) = [R_SHADING] /\
     plain_blocks out /\ ly_letters out = [1; 2; 3]%Z).
Proof.
  split.
  - do 8 eexists. split; [vm_compute; reflexivity|]. repeat split; vm_compute; reflexivity.
  - do 2 eexists. split; [vm_compute; reflexivity|]. split; [vm_compute; reflexivity|]. split; [|vm_compute; reflexivity].
    intros b Hb. repeat (destruct Hb as [<-|Hb]; [reflexivity|]). destruct Hb.
Qed.
Print Assumptions C66_black_refuted.
(** A page whose lines all cross the middle gets an empty table of one cell above its top edge. *)
Theorem C66_stray_table_refuted : exists w out bb i s t, ly_parse [] [ly_text 50 100 250 120 [ly_line 1 1 50 100 250 120]; ly_text 50 200 200 210 [ly_line 2 2 50 200 200 210]] no_shapes = Ok (w, out) /\
  out = LTable bb [(Some i, s, [])] :: t /\ ly_letters t = [1; 2]%Z /\ ry0 bb == - (5) /\ ry1 bb == 5.
Proof. do 6 eexists. split; [vm_compute; reflexivity|]. repeat split; vm_compute; reflexivity. Qed.
Print Assumptions C66_stray_table_refuted.
(** Witness for the plain page: a heading on the left, a paragraph across the middle, one on the
    left below. *)
Definition ly_plain : list CleanModel.tblock :=
  [mkBlk false (ly_rect 50 50 100 60) [ly_line 1 1 50 50 100 60]; mkBlk false (ly_rect 50 100 250 150) [ly_line 2 2 50 100 250 120; ly_line 3 2 50 130 200 150]; mkBlk false (ly_rect 50 200 100 210) [ly_line 4 3 50 200 100 210]].
Example C66_plain_nonvacuous :
  (forall t, In t ly_plain -> proper (b_bbox t) /\ b_lines t <> [] /\ (forall l, In l (b_lines t) -> box (ln_bbox l) /\ good_line l) /\
     flowing (fun l => l) (flow_tol ly_set) (separate ly_set) (FText t) /\ ~ shaded [] (FText t)) /\
  (forall i, ~ in_line_at (map FText ly_plain) i) /\
  (exists e, let elems := map ln_bbox (flat_map b_lines ly_plain) in
     (forall x, In x elems -> box x) /\ In e elems /\ spanning (ly_rect 0 0 300 800) e /\ ~ above_columns (ly_rect 0 0 300 800) elems e /\ ~ below_columns (ly_rect 0 0 300 800) elems e) /\
  (exists w out, ly_parse [] (map LText ly_plain) no_shapes = Ok (w, out) /\ ly_letters out = [1; 2; 3; 4]%Z).
Proof.
  assert (B : forall a b c d, (a < c)%Z -> (b < d)%Z -> box (ly_rect a b c d)).
  { intros a b c d H1 H2. split; [split; unfold ly_rect; cbn [rx0 rx1 ry0 ry1]; rewrite <- Zlt_Qlt; assumption|apply CleanProps.int_box]. }
  split; [|split; [|split]].
  - intros t Ht. split; [|split; [|split; [|split]]].
    + cbn in Ht. repeat (destruct Ht as [<-|Ht]; [split; vm_compute; reflexivity|]). destruct Ht.
    + cbn in Ht. repeat (destruct Ht as [<-|Ht]; [discriminate|]). destruct Ht.
    + intros l Hl. cbn in Ht. repeat (destruct Ht as [<-|Ht]; [cbn in Hl; repeat (destruct Hl as [<-|Hl]; [split; [apply B; reflexivity|intros s [<-|[]]; split; [apply CleanProps.int_box|split; vm_compute; [reflexivity|discriminate]]]|]); destruct Hl|]). destruct Ht.
    + cbn in Ht. repeat (destruct Ht as [<-|Ht]; [eexists; split; [reflexivity|vm_compute; reflexivity]|]). destruct Ht.
    + intros (s & [] & _).
  - intros [|[|[|i]]] (a & b & H1 & H2 & H3); cbn in H1, H2; try discriminate; injection H1 as <-; injection H2 as <-; destruct H3 as [H3 _]; vm_compute in H3; apply H3; reflexivity.
  - exists (ly_rect 50 100 250 120). cbv zeta. split; [|split; [|split; [|split]]].
    + intros x Hx. cbn in Hx. repeat (destruct Hx as [<-|Hx]; [apply B; reflexivity|]). destruct Hx.
    + right. left. reflexivity.
    + split; vm_compute; discriminate.
    + intros H. specialize (H (ly_rect 50 50 100 60) (or_introl eq_refl) (or_introl eq_refl)). vm_compute in H. discriminate.
    + intros H. specialize (H (ly_rect 50 200 100 210)). assert (X : ry1 (ly_rect 50 200 100 210) < ry0 (ly_rect 50 100 250 120)) by (apply H; [do 3 right; left; reflexivity|left; vm_compute; reflexivity]).
      vm_compute in X. discriminate.
  - do 2 eexists. split; vm_compute; reflexivity.
Qed.
(** Witness for the shapes of a cell: a mark in the framed line is handed to the cell, the borders are not. *)
Definition ly_marked : list shape := ly_borders ++ [mkShape ShapeModel.KFill (ly_rect 50 100 150 120) 65535 R_UNDEFINED 0 0 0 0 0 5].
Example C66_cell_shapes_nonvacuous : exists w out c, ly_parse ly_marked ly_three (mkLS [0; 1; 2; 3; 4] [0; 1; 2; 3] [4] [0; 1; 2; 3] [])%nat = Ok (w, out) /\ plain_blocks ly_three /\
  cell_of out c /\ ls_all (lc_shapes c) = [4%nat] /\ ly_letters (lc_blocks c) = [2]%Z.
Proof.
  do 3 eexists. split; [vm_compute; reflexivity|]. split; [intros b [<-|[]]; reflexivity|]. split; [eapply cell_here; [right; left; reflexivity|left; reflexivity]|]. split; vm_compute; reflexivity.
Qed.

(* ------------------------------------------------------------------ *)
(** * Filling tables *)
(** Text blocks, each in one cell of a table found, or with each character in one cell (and in no cell
    almost as a whole), or outside of the tables, are distributed without loss and without doubling, and
    what is written in a cell lies in the box of that cell. *)
Theorem C66_tables_filled ids w (bs : list CleanModel.tblock) ss ts : ts <> [] -> tidy ts ->
  (forall b, In b bs -> nested_block (as_block b) /\ (in_cells ts b \/ outside ts b)) ->
  exists w' out ss', place_tables ids w (map LText bs) ss ts = Ok (w', out, ss') /\
    Permutation (text_of out) (text_of (map LText bs)) /\
    (forall bb cs c g, In (LTable bb cs) out -> In c cs -> In g (text_of (lc_blocks c)) -> Rect.covers (info_box (lc_info c)) (glyph_box (fst g))).
Proof. intros Ne Ht H. destruct (place_conserves ids w bs ss ts Ne Ht H) as (w' & out & ss' & E & P & C & _). exists w', out, ss'. auto. Qed.
Print Assumptions C66_tables_filled.
(** So are the shapes: what lies in a table and is no border or shading is handed to just those cells of the table it meets, and to no other table;
    the other shapes stay with the page. *)
Theorem C66_shapes_filled ids w (bs : list CleanModel.tblock) ss ts : ts <> [] -> tidy ts ->
  (forall b, In b bs -> nested_block (as_block b) /\ (in_cells ts b \/ outside ts b)) -> (forall x, In x (ls_all ss) -> proper (sh_bbox (shape_at w x))) ->
  let free x := sh_type (shape_at w x) <> R_BORDER /\ sh_type (shape_at w x) <> R_SHADING in
  exists w' out ss', place_tables ids w (map LText bs) ss ts = Ok (w', out, ss') /\
    (forall x, In x (ls_all ss') <-> In x (ls_all ss) /\ ~ (free x /\ exists t, In t ts /\ Rect.covers (tab_box (fst t)) (sh_bbox (shape_at w x)))) /\
    (forall t, In t ts -> exists cs, In (LTable (fst t) cs) out /\ map (fun c : lcell => lc_info c) cs = snd t /\
       forall c x, In c cs -> In x (ls_all (lc_shapes c)) <->
         In x (ls_all ss) /\ free x /\ Rect.covers (tab_box (fst t)) (sh_bbox (shape_at w x)) /\ rect_bool (rinter (info_box (lc_info c)) (sh_bbox (shape_at w x))) = true).
Proof.
  cbv zeta. intros Ne Ht H Ps. destruct (place_conserves ids w bs ss ts Ne Ht H) as (w' & out & ss' & E & _ & _ & K & T). exists w', out, ss'. split; [exact E|].
  destruct Ht as (T1 & T2 & _). rewrite Forall_forall in T1.
  assert (Tgt : forall s j t, proper (sh_bbox s) -> nth_error (new_boxes ts) j = Some t ->
    (ShapeModel.shape_target (new_boxes ts) s = Some j <-> (sh_type s <> R_BORDER /\ sh_type s <> R_SHADING) /\ Rect.covers t (sh_bbox s))).
  { intros s j t Pp Ej. pose proof (ShapeProps.C48_first_table (new_boxes ts) [s] s j) as C.
    assert (Sh : In s (ShapeModel.shapes_of_table (new_boxes ts) [s] j) <-> ShapeModel.shape_target (new_boxes ts) s = Some j).
    { unfold ShapeModel.shapes_of_table. cbn [filter]. destruct (ShapeModel.shape_target (new_boxes ts) s) as [i|]; [|split; [intros []|discriminate]].
      destruct (Nat.eqb_spec i j) as [->|N]; [split; [reflexivity|left; reflexivity]|split; [intros []|congruence]]. }
    rewrite <- Sh, C. clear C Sh.
    assert (Cv : forall q, In q (new_boxes ts) -> rcontains q (sh_bbox s) = true <-> Rect.covers q (sh_bbox s)) by (intros q Iq; rewrite (rcontains_coversb q _ (T1 q Iq) Pp); apply coversb_iff).
    split.
    - intros (_ & A & B & (u & Eu & Cu) & _). rewrite Ej in Eu. injection Eu as <-. split; [auto|]. apply Cv; [eapply nth_error_In; exact Ej|exact Cu].
    - intros ((A & B) & Cu). split; [left; reflexivity|]. split; [exact A|]. split; [exact B|]. split; [exists t; split; [exact Ej|]; apply Cv; [eapply nth_error_In; exact Ej|exact Cu]|].
      intros i u Li Eu. destruct (rcontains u (sh_bbox s)) eqn:Ru; [|reflexivity]. exfalso. apply Cv in Ru; [|eapply nth_error_In; exact Eu].
      assert (Ap : AssignSpec.apart u t).
      { clear - T2 Li Eu Ej. revert i j Li Eu Ej. induction T2 as [|q l F _ IH]; intros i j Li Eu Ej; [destruct i; discriminate|]. destruct j as [|j]; [lia|]. destruct i as [|i]; cbn [nth_error] in *.
        - injection Eu as <-. rewrite Forall_forall in F. apply F. eapply nth_error_In. exact Ej.
        - apply (IH i j); [lia|assumption|assumption]. }
      destruct Pp as [P1 P2]. destruct Ru as (R1 & R2 & R3 & R4), Cu as (S1 & S2 & S3 & S4). unfold AssignSpec.apart in Ap. lra. }
  split.
  - intros x. rewrite K. split; intros (Ix & A); (split; [exact Ix|]).
    + intros (Fr & t & It & Cv). apply In_nth_error in It. destruct It as (j & Ej).
      assert (Ej' : nth_error (new_boxes ts) j = Some (tab_box (fst t))) by (apply (map_nth_error (fun t : new_table => tab_box (fst t))); exact Ej).
      pose proof (proj2 (Tgt _ j _ (Ps x Ix) Ej') (conj Fr Cv)) as X. congruence.
    + destruct (ShapeModel.shape_target (new_boxes ts) (shape_at w x)) as [j|] eqn:Es; [|reflexivity]. exfalso. apply A. pose proof (ShapeProof.shape_target_range _ _ _ Es) as Lj.
      destruct (nth_error (new_boxes ts) j) as [q|] eqn:Ej; [|apply nth_error_None in Ej; lia]. apply (Tgt _ j _ (Ps x Ix) Ej) in Es. split; [apply Es|].
      apply nth_error_In in Ej. apply in_map_iff in Ej. destruct Ej as (t & <- & It). exists t. split; [exact It|]. apply Es.
  - intros t It. apply In_nth_error in It. destruct It as (j & Ej). destruct (T j t Ej) as (cs & I1 & I2 & I3). exists cs. split; [exact I1|]. split; [exact I2|].
    intros c x Ic. rewrite (I3 c x Ic). assert (Ej' : nth_error (new_boxes ts) j = Some (tab_box (fst t))) by (apply (map_nth_error (fun t : new_table => tab_box (fst t))); exact Ej).
    split.
    + intros (Ix & Es & _ & Rb & _). apply (Tgt _ j _ (Ps x Ix) Ej') in Es. tauto.
    + intros (Ix & Fr & Cv & Rb). split; [exact Ix|]. split; [apply (Tgt _ j _ (Ps x Ix) Ej'); auto|]. split; [|split; [exact Rb|apply GeomProof.proper_truthy; apply Ps; exact Ix]].
      unfold rinter in Rb. destruct (rect_empty (info_box (lc_info c))) eqn:Re; [discriminate Rb|]. unfold rect_bool. unfold rect_empty in Re. apply negb_true_iff.
      apply andb_false_iff. destruct (qeq_spec (rx0 (info_box (lc_info c))) (rx1 (info_box (lc_info c)))) as [Ee|Ee]; [discriminate Re|].
      destruct (qeq_spec (rx0 (info_box (lc_info c))) 0) as [E0|E0]; [|left; reflexivity]. destruct (qeq_spec (rx1 (info_box (lc_info c))) 0) as [E1|E1]; [exfalso; apply Ee; rewrite E0, E1; reflexivity|].
      left. apply andb_false_iff. right. reflexivity.
Qed.
Print Assumptions C66_shapes_filled.
(** Witness: a table of two cells, a block in the first, one over both, one below. *)
Definition ly_cell (a b c d : Z) : option bcell := Some (mkBcell (ly_rect a b c d) None (0, 0, 0, 0)%Z (1, 1, 1, 1) (1, 1)%nat).
Definition ly_tables : list new_table := [(mkTab (ly_rect 40 90 260 150) [(60, 2%nat)] true, [ly_cell 40 90 150 150; ly_cell 150 90 260 150])].
Definition ly_texts : list CleanModel.tblock :=
  [mkBlk false (ly_rect 50 95 140 105) [ly_line 1 1 50 95 140 105];
   mkBlk false (ly_rect 50 110 250 120) [ly_line 2 2 50 110 140 120; ly_line 3 2 160 110 250 120];
   mkBlk false (ly_rect 50 200 250 210) [ly_line 4 3 50 200 250 210]].
Example C66_filled_nonvacuous : tidy ly_tables /\ (forall b, In b ly_texts -> nested_block (as_block b) /\ (in_cells ly_tables b \/ outside ly_tables b)) /\
  exists w out ss bb c1 c2 t, place_tables S (mkW [] 0) (map LText ly_texts) no_shapes ly_tables = Ok (w, out, ss) /\ out = [LTable bb [c1; c2]; t] /\
    ly_letters (lc_blocks c1) = [1; 2]%Z /\ ly_letters (lc_blocks c2) = [3]%Z /\ ly_letters [t] = [4]%Z.
Proof.
  assert (B : forall a b c d, (a < c)%Z -> (b < d)%Z -> box (ly_rect a b c d)).
  { intros a b c d H1 H2. split; [split; unfold ly_rect; cbn [rx0 rx1 ry0 ry1]; rewrite <- Zlt_Qlt; assumption|apply CleanProps.int_box]. }
  assert (C : forall a b c d e f g h, (a <= e)%Z -> (b <= f)%Z -> (g <= c)%Z -> (h <= d)%Z -> Rect.covers (ly_rect a b c d) (ly_rect e f g h)).
  { intros. unfold Rect.covers, ly_rect. cbn [rx0 rx1 ry0 ry1]. rewrite <- !Zle_Qle. auto. }
  assert (L : forall ch p a b c d, (a < c)%Z -> (b < d)%Z -> nested_line (ly_line ch p a b c d)).
  { intros. split; [apply B; assumption|]. intros s [<-|[]]. split; [split; [apply B; assumption|]|apply GeomProof.covers_refl]. intros x [<-|[]]. split; [apply B; assumption|apply GeomProof.covers_refl]. }
  split; [|split].
  - split; [constructor; [apply B; reflexivity|constructor]|]. split; [constructor; constructor|]. intros t [<-|[]].
    change (cell_boxes _) with [ly_rect 40 90 150 150; ly_rect 150 90 260 150]. split.
    + constructor; [apply B; reflexivity|constructor; [apply B; reflexivity|constructor]].
    + constructor; [constructor; [left; vm_compute; discriminate|constructor]|]. constructor; constructor.
  - intros b Hb. cbn in Hb. destruct Hb as [<-|[<-|[<-|[]]]].
    + split; [split; [apply B; reflexivity|intros l [<-|[]]; split; [apply L; reflexivity|apply GeomProof.covers_refl]]|]. left. eexists. split; [left; reflexivity|]. split; [apply C; discriminate|]. left.
      exists (ly_rect 40 90 150 150). split; [left; reflexivity|apply C; discriminate].
    + split; [split; [apply B; reflexivity|intros l [<-|[<-|[]]]; (split; [apply L; reflexivity|apply C; discriminate])]|]. left. eexists. split; [left; reflexivity|]. split; [apply C; discriminate|]. right. split.
      * intros c [<-|[<-|[]]]; vm_compute; reflexivity.
      * intros g [<-|[<-|[]]]; [exists (ly_rect 40 90 150 150)|exists (ly_rect 150 90 260 150)]; (split; [cbn; auto|apply C; discriminate]).
    + split; [split; [apply B; reflexivity|intros l [<-|[]]; split; [apply L; reflexivity|apply GeomProof.covers_refl]]|]. right. intros t [<-|[]]. right. right. left. vm_compute. discriminate.
  - do 7 eexists. split; [vm_compute; reflexivity|]. repeat split; vm_compute; reflexivity.
Qed.

(* ------------------------------------------------------------------ *)
(** * Cells are parsed as layouts of their own *)
(** Each cell with a box in a table of the output, at the top level: its blocks are what parsing the
    blocks assigned to it gives, in the box between the middles of its borders, with its shapes, one level deeper and
    never as a page. *)
Theorem C66_cells order rorder ids st fuel top w box bs ss w' out bb cs c i t r b l :
  layout_parse order rorder ids st (S fuel) top w box bs ss = Ok (w', out) -> In (LTable bb cs) out -> In c cs -> lc_info c = Some i -> rect_bool (bc_bbox i) = true -> bc_widths i = (t, r, b, l) ->
  exists w0 mid cs0 c0 w1 w2, level order rorder ids st top w box bs ss = Ok (w0, mid) /\ In (LTable bb cs0) mid /\ In c0 cs0 /\ lc_info c0 = Some i /\ lc_shapes c0 = lc_shapes c /\
    layout_parse order rorder ids st fuel false w1 (mkRect (rx0 (bc_bbox i) + l / 2) (ry0 (bc_bbox i) + t / 2) (rx1 (bc_bbox i) - r / 2) (ry1 (bc_bbox i) - b / 2)) (lc_blocks c0) (lc_shapes c) = Ok (w2, lc_blocks c).
Proof.
  intros E Hb Hc Ei Tr Wd. cbn [layout_parse] in E. destruct (level order rorder ids st top w box bs ss) as [[w0 mid]| |] eqn:El; try discriminate. cbn [bind fst snd] in E.
  exists w0, mid. clear El.
  assert (Tab : forall mid w0 w' out, parse_tables (layout_parse order rorder ids st fuel false) w0 mid = Ok (w', out) -> In (LTable bb cs) out -> exists cs0 wa wb, In (LTable bb cs0) mid /\ parse_cells (layout_parse order rorder ids st fuel false) wa cs0 = Ok (wb, cs)).
  { clear. induction mid as [|x mid IH]; intros w0 w' out E Hb; cbn [parse_tables] in E; [injection E as <- <-; destruct Hb|].
    destruct x as [tx|bb0 cs0].
    - cbn [bind fst snd] in E. destruct (parse_tables _ w0 mid) as [[w1 r1]| |] eqn:E1; try discriminate. cbn [bind fst snd] in E. injection E as <- <-. destruct Hb as [Hb|Hb]; [discriminate|].
      destruct (IH _ _ _ E1 Hb) as (cs1 & wa & wb & A & B). exists cs1, wa, wb. split; [right; exact A|exact B].
    - destruct (parse_cells _ w0 cs0) as [[w1 cs1]| |] eqn:Ec; try discriminate. cbn [bind fst snd] in E. destruct (parse_tables _ w1 mid) as [[w2 r1]| |] eqn:E1; try discriminate. cbn [bind fst snd] in E. injection E as <- <-. destruct Hb as [Hb|Hb].
      + injection Hb as -> ->. exists cs0, w0, w1. split; [left; reflexivity|exact Ec].
      + destruct (IH _ _ _ E1 Hb) as (cs2 & wa & wb & A & B). exists cs2, wa, wb. split; [right; exact A|exact B]. }
  destruct (Tab _ _ _ _ E Hb) as (cs0 & wa & wb & Hm & Ec). exists cs0. clear E Hb Tab.
  assert (Cel : forall cs0 cs wa wb, parse_cells (layout_parse order rorder ids st fuel false) wa cs0 = Ok (wb, cs) -> In c cs -> exists c0 w1 w2, In c0 cs0 /\ lc_info c0 = Some i /\ lc_shapes c0 = lc_shapes c /\
    layout_parse order rorder ids st fuel false w1 (working_box i) (lc_blocks c0) (lc_shapes c) = Ok (w2, lc_blocks c)).
  { clear Hc Ec. clear Hm cs0 cs wa wb. induction cs0 as [|x cs0 IH]; intros cs wa wb E Hc; cbn [parse_cells] in E; [injection E as <- <-; destruct Hc|].
    assert (Tl : forall w1 c1, bind (parse_cells (layout_parse order rorder ids st fuel false) w1 cs0) (fun q => Ok (fst q, c1 :: snd q)) = Ok (wb, cs) ->
      (c1 = c -> exists wa' wb', lc_info x = Some i /\ lc_shapes x = lc_shapes c /\ layout_parse order rorder ids st fuel false wa' (working_box i) (lc_blocks x) (lc_shapes c) = Ok (wb', lc_blocks c)) ->
      exists c0 w1 w2, In c0 (x :: cs0) /\ lc_info c0 = Some i /\ lc_shapes c0 = lc_shapes c /\ layout_parse order rorder ids st fuel false w1 (working_box i) (lc_blocks c0) (lc_shapes c) = Ok (w2, lc_blocks c)).
    { intros w1 c1 E' H1. destruct (parse_cells _ w1 cs0) as [[w2 r1]| |] eqn:E1; try discriminate. cbn [bind fst snd] in E'. injection E' as <- <-. destruct Hc as [Hc|Hc].
      - destruct (H1 Hc) as (wa' & wb' & A & B & C). exists x, wa', wb'. split; [left; reflexivity|auto].
      - destruct (IH _ _ _ E1 Hc) as (c0 & wx & wy & A & B). exists c0, wx, wy. split; [right; exact A|exact B]. }
    destruct (lc_info x) as [ix|] eqn:Ex.
    - destruct (rect_bool (bc_bbox ix)) eqn:Tx.
      + destruct (layout_parse order rorder ids st fuel false wa (working_box ix) (lc_blocks x) (lc_shapes x)) as [[w1 b1]| |] eqn:E1; try discriminate. cbn [bind fst snd] in E.
        apply (Tl _ _ E). intros <-. cbn [lc_info lc_shapes lc_blocks fst snd] in *. injection Ei as ->. exists wa, w1. split; [reflexivity|]. split; [reflexivity|exact E1].
      + cbn [bind fst snd] in E. apply (Tl _ _ E). intros ->. rewrite Ei in Ex. injection Ex as <-. congruence.
    - cbn [bind fst snd] in E. apply (Tl _ _ E). intros ->. congruence. }
  destruct (Cel _ _ _ _ Ec Hc) as (c0 & w1 & w2 & A & B & C & D). exists c0, w1, w2. split; [reflexivity|]. split; [exact Hm|]. split; [exact A|]. split; [exact B|]. split; [exact C|].
  unfold working_box in D. rewrite Wd in D. exact D.
Qed.
Print Assumptions C66_cells.
(** Witness: the cell of the bordered line. *)
Example C66_cells_nonvacuous : exists w out t bb c i, ly_parse ly_borders ly_three (mkLS [0; 1; 2; 3] [0; 1; 2; 3] [] [0; 1; 2; 3] [])%nat = Ok (w, out) /\ out = [t; LTable bb [c]] /\ lc_info c = Some i /\ rect_bool (bc_bbox i) = true /\ bc_widths i = (1, 1, 1, 1).
Proof. do 6 eexists. split; [vm_compute; reflexivity|]. split; [reflexivity|]. split; [reflexivity|]. split; vm_compute; reflexivity. Qed.
(** A line under the first text and a link over the third: both are given to the text, the line is an underline from then on. *)
Definition ly_styles (g : glyph * list style) : Z * list rtype := (match fst g with GChar c _ => ch_c c | GImage _ _ => 0%Z end, map st_type (snd g)).
Definition ly_link : shape := mkShape ShapeModel.KLink (ly_rect 50 130 200 150) 7 R_HYPERLINK 0 0 0 0 0 9.
Example C66_formatted_nonvacuous : exists w out, ly_parse [ly_stroke 1 50 59 100 59; ly_link] (map LText ly_plain) (mkLS [0; 1] [] [] [0] [])%nat = Ok (w, out) /\
  map sh_type (w_shapes w) = [R_UNDERLINE; R_HYPERLINK] /\ map ly_styles (text_of out) = [(1%Z, [R_UNDERLINE]); (2%Z, []); (3%Z, [R_HYPERLINK]); (4%Z, [])].
Proof. do 2 eexists. split; [vm_compute; reflexivity|]. split; vm_compute; reflexivity. Qed.
(** Witness: two tables, the second of two cells; a mark in its first cell, one over both cells, one over both tables, a border. *)
Definition ly_two : list new_table :=
  [(mkTab (ly_rect 40 10 260 60) [(50, 1%nat)] true, [ly_cell 40 10 260 60]); (mkTab (ly_rect 40 90 260 150) [(60, 2%nat)] true, [ly_cell 40 90 150 150; ly_cell 150 90 260 150])].
Definition ly_fills : list shape :=
  [mkShape ShapeModel.KFill (ly_rect 50 100 140 110) 9 R_UNDEFINED 0 0 0 0 0 1; mkShape ShapeModel.KFill (ly_rect 50 120 250 130) 9 R_UNDEFINED 0 0 0 0 0 2;
   mkShape ShapeModel.KFill (ly_rect 50 50 60 100) 9 R_UNDEFINED 0 0 0 0 0 3; mkShape ShapeModel.KFill (ly_rect 40 90 260 91) 9 R_BORDER 0 0 0 0 0 4].
Example C66_shapes_nonvacuous : tidy ly_two /\ (forall x, In x [0; 1; 2; 3]%nat -> proper (sh_bbox (shape_at (mkW ly_fills 0) x))) /\
  exists w out ss b1 c1 b2 c2 c3, place_tables S (mkW ly_fills 0) [] (mkLS [0; 1; 2; 3] [] [] [] [])%nat ly_two = Ok (w, out, ss) /\ out = [LTable b1 [c1]; LTable b2 [c2; c3]] /\
    ls_all (lc_shapes c1) = [] /\ ls_all (lc_shapes c2) = [0; 1]%nat /\ ls_all (lc_shapes c3) = [1]%nat /\ ls_all ss = [2; 3]%nat.
Proof.
  assert (B : forall a b c d, (a < c)%Z -> (b < d)%Z -> proper (ly_rect a b c d)).
  { intros a b c d H1 H2. split; unfold ly_rect; cbn [rx0 rx1 ry0 ry1]; rewrite <- Zlt_Qlt; assumption. }
  split; [|split].
  - split; [constructor; [apply B; reflexivity|constructor; [apply B; reflexivity|constructor]]|]. split.
    + constructor; [constructor; [right; right; left; vm_compute; discriminate|constructor]|constructor; constructor].
    + intros t [<-|[<-|[]]].
      * change (cell_boxes _) with [ly_rect 40 10 260 60]. split; [constructor; [apply B; reflexivity|constructor]|constructor; constructor].
      * change (cell_boxes _) with [ly_rect 40 90 150 150; ly_rect 150 90 260 150]. split.
        -- constructor; [apply B; reflexivity|constructor; [apply B; reflexivity|constructor]].
        -- constructor; [constructor; [left; vm_compute; discriminate|constructor]|]. constructor; constructor.
  - intros x [<-|[<-|[<-|[<-|[]]]]]; apply B; reflexivity.
  - do 8 eexists. split; [vm_compute; reflexivity|]. split; [reflexivity|]. repeat split; vm_compute; reflexivity.
Qed.
