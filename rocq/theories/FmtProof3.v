(** The shapes over the lines of one block. *)
From Verif Require Import GeomProof ShapeModel TextModel TextSpec TextProof FmtSpec LayoutFormat FmtProof FmtProof2.
From Coq Require Import List Lia Lqa Permutation Sorting.Sorted.
Import ListNotations.
Notation length := List.length.
Open Scope Q_scope.

(* ---------------- one shape over the parts of one text ---------------- *)
Definition parts_ok (kind : shape -> rtype) (done rest : list shape) (t : tspan) (ps : list tspan) : Prop :=
  concat (map ts_chars ps) = ts_chars t /\ Forall (good_part kind t done rest) ps.
Lemma parts_start kind ms t : set_text t -> clearly_marked kind ms t -> parts_ok kind [] ms t [t].
Proof.
  intros S (M1 & M2). split; [cbn [map concat]; apply app_nil_r|]. constructor; [|constructor]. pose proof S as (P & D & L & C).
  split; [split; [reflexivity|]; split; [reflexivity|]; split; [lra|]; split; [apply Qlt_le_weak, P|]; split; [lra|exact D]|].
  split; [exact L|]. split; [reflexivity|]. split; [apply incl_refl|]. split; [|split].
  - intros c Hc. exists []. split; [constructor|rewrite app_nil_r; reflexivity].
  - intros s c Hs On Hc Hh. destruct On as (O1 & O2 & _). split; [apply P|]. split; lra.
  - intros s Hs On _ _. destruct (M1 s Hs) as [Cl|(_ & _ & c & Hc & Hh)]; [destruct (over_clear _ _ On Cl)|]. exists c. split; [exact Hc|]. apply (half_over t (sh_bbox s) c S Hc On), Hh.
Qed.
Lemma split_spans_app h a : forall b s, split_spans h (a ++ b) s = (fst (split_spans h a s) ++ fst (split_spans h b (snd (split_spans h a s))), snd (split_spans h b (snd (split_spans h a s)))).
Proof.
  induction a as [|[t|k r] a IH]; intros b s; cbn [app split_spans].
  - cbn [fst snd app]; destruct (split_spans h b s); reflexivity.
  - destruct (split_span h t s) as [p s1]. rewrite IH. destruct (split_spans h a s1) as [ra s2]. cbn [fst snd]. destruct (split_spans h b s2) as [rb s3]. cbn [fst snd]. rewrite app_assoc. reflexivity.
  - rewrite IH. destruct (split_spans h a s) as [ra s2]. cbn [fst snd]. destruct (split_spans h b s2) as [rb s3]. reflexivity.
Qed.
Lemma clear_inter s t p : proper s -> proper (ts_bbox t) -> in_text t p -> clear_of s (ts_bbox t) -> rect_bool (rinter s (ts_bbox p)) = false.
Proof.
  intros P Pt (Y0 & Y1 & X0 & X1 & X2 & _) C. unfold rinter. rewrite (proper_nonempty s P). cbn [orb]. destruct (rect_empty (ts_bbox p)) eqn:E; [reflexivity|]. cbv zeta.
  destruct (qlt_spec (qmin (rx1 s) (rx1 (ts_bbox p))) (qmax (rx0 s) (rx0 (ts_bbox p)))) as [A|A]; [reflexivity|]. destruct (qlt_spec (qmin (ry1 s) (ry1 (ts_bbox p))) (qmax (ry0 s) (ry0 (ts_bbox p)))) as [B|B]; [reflexivity|].
  exfalso. revert A B. unfold qmin, qmax. qcases; intros; destruct C as [C|[C|[C|C]]]; lra.
Qed.
(** A shape off the text. *)
Lemma parts_clear kind done s0 rest t ps : set_text t -> clear_of (sh_bbox s0) (ts_bbox t) -> parts_ok kind done (s0 :: rest) t ps -> parts_ok kind (done ++ [s0]) rest t ps.
Proof.
  intros S C (E & F). split; [exact E|]. rewrite Forall_forall in *. intros p Hp. destruct (F p Hp) as (It & L & At & Inc & St & A & NB).
  split; [exact It|]. split; [exact L|]. split; [exact At|]. split; [exact Inc|]. split; [|split].
  - intros c Hc. destruct (St c Hc) as (fs & Fo & Es). exists (fs ++ []). rewrite app_nil_r at 2. split; [|exact Es]. apply formats_app; [exact Fo|]. apply fo_no; [|constructor]. apply (clear_half t); [exact S|apply Inc, Hc|exact C].
  - intros s c Hs. apply A. right. exact Hs.
  - intros s Hs On Nd. apply NB; [right; exact Hs|exact On|]. intros d Hd. apply Nd, in_or_app. left. exact Hd.
Qed.
Lemma spans_clear kind done rest t ps s0 s : set_text t -> proper (sh_bbox s0) -> sh_bbox s = sh_bbox s0 -> clear_of (sh_bbox s0) (ts_bbox t) -> Forall (good_part kind t done rest) ps ->
  split_spans true (map SText ps) s = (map SText ps, s).
Proof.
  intros S P E C. induction 1 as [|p ps (It & _) F IH]; [reflexivity|]. cbn [map split_spans].
  assert (X : split_span true p s = ([p], s)) by (unfold split_span; rewrite E, (clear_inter (sh_bbox s0) t p P (proj1 S) It C); reflexivity). rewrite X, IH. reflexivity.
Qed.
Lemma text_step kind done s0 rest t ps s : set_text t -> clearly_marked kind (done ++ s0 :: rest) t -> still s0 s -> proper (sh_bbox s0) -> rect_decimal (sh_bbox s0) -> parts_ok kind done (s0 :: rest) t ps ->
  exists ps', fst (split_spans true (map SText ps) s) = map SText ps' /\ parts_ok kind (done ++ [s0]) rest t ps' /\ still s0 (snd (split_spans true (map SText ps) s)) /\
    (clear_of (sh_bbox s0) (ts_bbox t) -> snd (split_spans true (map SText ps) s) = s).
Proof.
  intros S (M1 & M2) Sl P D Ok. destruct (M1 s0 (in_elt s0 done rest)) as [C|(On & Sh & _)].
  - exists ps. rewrite (spans_clear kind done (s0 :: rest) t ps s0 s S P (still_box _ _ Sl) C (proj2 Ok)). cbn [fst snd]. split; [reflexivity|]. split; [apply parts_clear; assumption|]. split; [exact Sl|reflexivity].
  - assert (Pr : forall b, In b rest -> on t b -> gap_between (sh_bbox s0) (sh_bbox b) \/ same_extent (sh_bbox s0) (sh_bbox b)).
    { intros b Hb Ob. apply in_split in Hb. destruct Hb as (y & z & E). destruct (M2 done s0 y b z) as [X|[X _]]; [rewrite E; reflexivity|exact On|exact Ob|left; exact X|right; exact X]. }
    assert (Or : forall b, In b rest -> on t b -> gap_between (sh_bbox s0) (sh_bbox b) -> (exists d, In d done /\ on t d /\ same_extent (sh_bbox d) (sh_bbox s0)) -> rx1 (sh_bbox s0) < rx0 (sh_bbox b)).
    { intros b Hb Ob Bs (d & Hd & Od & E0 & E1). apply in_split in Hd. destruct Hd as (x & y & E). destruct (M2 x d y s0 rest) as [X|[_ X]]; [rewrite E, <- app_assoc; reflexivity|exact Od|exact On| |].
      - exfalso. destruct P as [P _]. destruct X as [X|X]; lra.
      - specialize (X b Hb Ob). destruct Bs; [assumption|contradiction]. }
    assert (Go : forall qs s, Forall (good_part kind t done (s0 :: rest)) qs -> still s0 s -> exists qs', fst (split_spans true (map SText qs) s) = map SText qs' /\ concat (map ts_chars qs') = concat (map ts_chars qs) /\
       Forall (good_part kind t (done ++ [s0]) rest) qs' /\ still s0 (snd (split_spans true (map SText qs) s))).
    { clear s Sl Ok ps. induction qs as [|q qs IH]; intros s F Sl; [exists []; cbn; repeat split; [constructor|apply Sl|apply Sl]|]. inversion F as [|? ? F1 F2]; subst.
      destruct (part_step kind t S done s0 rest q s F1 On Sh Sl P D Pr Or) as (C & G & Sl'). cbn [map split_spans]. destruct (split_span true q s) as [p s1]. cbn [fst snd] in *.
      destruct (IH s1 F2 Sl') as (qs' & E1 & E2 & E3 & E4). destruct (split_spans true (map SText qs) s1) as [r s2]. cbn [fst snd] in *. exists (p ++ qs').
      split; [rewrite E1, map_app; reflexivity|]. split; [rewrite map_app, concat_app, C, E2; reflexivity|]. split; [apply Forall_app; split; assumption|exact E4]. }
    destruct (Go ps s (proj2 Ok) Sl) as (ps' & E1 & E2 & E3 & E4). exists ps'. split; [exact E1|]. split; [split; [rewrite E2; apply Ok|exact E3]|]. split; [exact E4|]. intros C. destruct (over_clear _ _ On C).
Qed.

(* ---------------- one line ---------------- *)
Definition piece (kind : shape -> rtype) (done rest : list shape) (x : span) (xs : list span) : Prop :=
  match x with
  | SText t => exists ps, xs = map SText ps /\ parts_ok kind done rest t ps
  | SImage _ _ => xs = [x]
  end.
Definition line_at (kind : shape -> rtype) (done rest : list shape) (l0 l : line) : Prop :=
  ln_dir l = ln_dir l0 /\ ln_pid l = ln_pid l0 /\ ln_break l = ln_break l0 /\ req (ln_bbox l) (ln_bbox l0) /\ exists xss, Forall2 (piece kind done rest) (ln_spans l0) xss /\ ln_spans l = concat xss.
Definition line_texts (l : line) : list tspan := flat_map (fun s => match s with SText t => [t] | SImage _ _ => [] end) (ln_spans l).
Definition set_line_ (l : line) : Prop := normal_line l /\ ln_dir l = LEFT_RIGHT /\ (forall s, In s (ln_spans l) -> covers (ln_bbox l) (span_bbox s)) /\ forall t, In t (line_texts l) -> set_text t.
Lemma in_line_texts l t : In t (line_texts l) <-> In (SText t) (ln_spans l).
Proof.
  unfold line_texts. rewrite in_flat_map. split; [intros ([u|k b] & H & K); [destruct K as [->|[]]; exact H|destruct K]|]. intros H. exists (SText t). split; [exact H|left; reflexivity].
Qed.
Lemma line_start kind ms l : set_line_ l -> (forall t, In t (line_texts l) -> clearly_marked kind ms t) -> line_at kind [] ms l l.
Proof.
  intros (_ & _ & _ & St) M. split; [reflexivity|]. split; [reflexivity|]. split; [reflexivity|]. split; [split; [reflexivity|]; split; [reflexivity|]; split; reflexivity|].
  exists (map (fun x => [x]) (ln_spans l)). split.
  - assert (G : forall x, In x (ln_spans l) -> piece kind [] ms x [x]).
    { intros [t|k b] Hx; [|reflexivity]. exists [t]. split; [reflexivity|]. apply in_line_texts in Hx. apply parts_start; [apply St, Hx|apply M, Hx]. }
    revert G. generalize (ln_spans l). induction l0 as [|x xs IH]; intros G; constructor; [apply G; left; reflexivity|apply IH; intros y Hy; apply G; right; exact Hy].
  - generalize (ln_spans l). induction l0 as [|x xs IH]; [reflexivity|]. cbn [map concat app]. rewrite <- IH. reflexivity.
Qed.
Lemma line_clear kind done s0 rest l0 l : set_line_ l0 -> (forall t, In t (line_texts l0) -> clear_of (sh_bbox s0) (ts_bbox t)) -> line_at kind done (s0 :: rest) l0 l -> line_at kind (done ++ [s0]) rest l0 l.
Proof.
  intros (_ & _ & _ & St) C (A1 & A2 & A3 & A4 & xss & F & E). split; [exact A1|]. split; [exact A2|]. split; [exact A3|]. split; [exact A4|]. exists xss. split; [|exact E].
  assert (G : forall t, In (SText t) (ln_spans l0) -> set_text t /\ clear_of (sh_bbox s0) (ts_bbox t)) by (intros t Ht; apply in_line_texts in Ht; split; [apply St, Ht|apply C, Ht]).
  clear E A1 A2 A3 A4 St C. revert G. induction F as [|x xs l1 xss P F IH]; intros G; constructor.
  - destruct x as [t|k b]; [|exact P]. destruct P as (ps & -> & Ok). exists ps. split; [reflexivity|]. destruct (G t (or_introl eq_refl)). apply parts_clear; assumption.
  - apply IH. intros t Ht. apply G. right. exact Ht.
Qed.
Lemma absorbed b b0 c : req b b0 -> proper b0 -> rect_decimal b0 -> rect_decimal c -> valid c -> covers b0 c -> req (union_bbox b c) b0.
Proof.
  intros E P D Dc V (C1 & C2 & C3 & C4).
  assert (Db : rect_decimal b) by (destruct E as (E1 & E2 & E3 & E4), D as (D1 & D2 & D3 & D4); unfold rect_decimal, decimal in *; destruct D1 as (z1 & D1), D2 as (z2 & D2), D3 as (z3 & D3), D4 as (z4 & D4); split; [exists z1; lra|]; split; [exists z2; lra|]; split; [exists z3; lra|exists z4; lra]).
  pose proof (rround_fixed _ (runion_decimal b c Db Dc)) as (F1 & F2 & F3 & F4). unfold union_bbox.
  assert (R : req (runion b c) b0).
  { assert (Pb : rect_empty b = false) by (apply proper_nonempty; destruct E as (E1 & E2 & E3 & E4), P; split; lra).
    unfold runion. rewrite Pb. destruct (rect_empty c); [exact E|]. destruct E as (E1 & E2 & E3 & E4). unfold req. cbn [rx0 ry0 rx1 ry1]. unfold qmin, qmax. split; [qcases; lra|]. split; [qcases; lra|]. split; qcases; lra. }
  destruct R as (R1 & R2 & R3 & R4). split; [lra|]. split; [lra|]. split; lra.
Qed.
Lemma piece_spans kind done rest l0 xss : set_line_ l0 -> Forall2 (piece kind done rest) (ln_spans l0) xss -> forall x, In x (concat xss) -> span_bool x = true /\ rect_decimal (span_bbox x) /\ valid (span_bbox x) /\ covers (ln_bbox l0) (span_bbox x).
Proof.
  intros ((_ & _ & N) & _ & Cv & St) F.
  assert (G : forall y, In y (ln_spans l0) -> (valid (span_bbox y) /\ rect_decimal (span_bbox y) /\ span_bool y = true) /\ covers (ln_bbox l0) (span_bbox y) /\ forall t, y = SText t -> set_text t).
  { intros y Hy. split; [apply N, Hy|]. split; [apply Cv, Hy|]. intros t ->. apply St, in_line_texts, Hy. }
  clear N Cv St. revert G. induction F as [|y xs l1 xss P F IH]; intros G x Hx; [destruct Hx|]. cbn [concat] in Hx. apply in_app_or in Hx. destruct Hx as [Hx|Hx]; [|apply IH; [intros z Hz; apply G; right; exact Hz|exact Hx]].
  destruct (G y (or_introl eq_refl)) as ((V & D & B) & C & St). destruct y as [t|k b]; [|rewrite P in Hx; destruct Hx as [<-|[]]; split; [exact B|split; [exact D|split; [exact V|exact C]]]].
  destruct P as (ps & -> & (_ & Gp)). apply in_map_iff in Hx. destruct Hx as (p & <- & Hp). rewrite Forall_forall in Gp. destruct (Gp p Hp) as ((Y0 & Y1 & X0 & X1 & X2 & Dp) & _). pose proof (St t eq_refl) as ((_ & Py) & _).
  cbn [span_bbox] in *. destruct C as (C1 & C2 & C3 & C4). split; [|split; [exact Dp|split; [split; lra|split; [lra|split; [lra|split; lra]]]]].
  unfold span_bool, rect_bool. cbn [span_bbox]. apply negb_true_iff. apply Bool.not_true_iff_false. rewrite !andb_true_iff, !qeq_iff. intros (((_ & A) & _) & A'). lra.
Qed.
Lemma reset_box ss : forall l b0, proper b0 -> rect_decimal b0 -> req (ln_bbox l) b0 -> (forall x, In x ss -> span_bool x = true /\ rect_decimal (span_bbox x) /\ valid (span_bbox x) /\ covers b0 (span_bbox x)) ->
  req (ln_bbox (line_add_all l ss)) b0 /\ ln_dir (line_add_all l ss) = ln_dir l /\ ln_pid (line_add_all l ss) = ln_pid l /\ ln_break (line_add_all l ss) = ln_break l.
Proof.
  induction ss as [|x ss IH]; intros l b0 P D E H; [split; [exact E|]; repeat split|]. change (line_add_all l (x :: ss)) with (line_add_all (line_add l x) ss).
  destruct (H x (or_introl eq_refl)) as (B & Dx & V & C). destruct (IH (line_add l x) b0 P D) as (I1 & I2 & I3 & I4).
  - unfold line_add. rewrite B. cbn [ln_bbox]. apply absorbed; assumption.
  - intros y Hy. apply H. right. exact Hy.
  - split; [exact I1|]. rewrite I2, I3, I4. unfold line_add. rewrite B. repeat split.
Qed.
Lemma line_step kind done s0 rest l0 l s : set_line_ l0 -> (forall t, In t (line_texts l0) -> clearly_marked kind (done ++ s0 :: rest) t) -> still s0 s -> proper (sh_bbox s0) -> rect_decimal (sh_bbox s0) ->
  line_at kind done (s0 :: rest) l0 l ->
  line_at kind (done ++ [s0]) rest l0 (line_reset l (fst (split_spans true (ln_spans l) s))) /\ still s0 (snd (split_spans true (ln_spans l) s)) /\
  ((forall t, In t (line_texts l0) -> clear_of (sh_bbox s0) (ts_bbox t)) -> snd (split_spans true (ln_spans l) s) = s).
Proof.
  intros SL M Sl P D (A1 & A2 & A3 & A4 & xss & F & E). rewrite E.
  assert (Go : forall s, still s0 s -> exists yss, Forall2 (piece kind (done ++ [s0]) rest) (ln_spans l0) yss /\ fst (split_spans true (concat xss) s) = concat yss /\ still s0 (snd (split_spans true (concat xss) s)) /\
    ((forall t, In t (line_texts l0) -> clear_of (sh_bbox s0) (ts_bbox t)) -> snd (split_spans true (concat xss) s) = s)).
  { destruct SL as (_ & _ & _ & St). assert (G : forall t, In (SText t) (ln_spans l0) -> set_text t /\ clearly_marked kind (done ++ s0 :: rest) t) by (intros t Ht; apply in_line_texts in Ht; split; [apply St, Ht|apply M, Ht]).
    assert (Gi : forall t, In t (line_texts l0) <-> In (SText t) (ln_spans l0)) by (intros t; apply in_line_texts).
    assert (W : forall s, still s0 s -> exists yss, Forall2 (piece kind (done ++ [s0]) rest) (ln_spans l0) yss /\ fst (split_spans true (concat xss) s) = concat yss /\ still s0 (snd (split_spans true (concat xss) s)) /\
      ((forall t, In (SText t) (ln_spans l0) -> clear_of (sh_bbox s0) (ts_bbox t)) -> snd (split_spans true (concat xss) s) = s)).
    2:{ intros s' Sl'. destruct (W s' Sl') as (yss & W1 & W2 & W3 & W4). exists yss. split; [exact W1|]. split; [exact W2|]. split; [exact W3|]. intros X. apply W4. intros t Ht. apply X, Gi, Ht. }
    clear Gi St M A1 A2 A3 A4 E s Sl l. revert G. induction F as [|x xs l1 xss Px F IH]; intros G s Sl; [exists []; split; [constructor|]; split; [reflexivity|]; split; [exact Sl|reflexivity]|].
    cbn [concat]. rewrite split_spans_app. cbn [fst snd].
    assert (X : exists ys, piece kind (done ++ [s0]) rest x ys /\ fst (split_spans true xs s) = ys /\ still s0 (snd (split_spans true xs s)) /\ ((forall t, x = SText t -> clear_of (sh_bbox s0) (ts_bbox t)) -> snd (split_spans true xs s) = s)).
    { destruct x as [t|k b].
      - destruct Px as (ps & -> & Ok). destruct (G t (or_introl eq_refl)) as (G1 & G2). destruct (text_step kind done s0 rest t ps s G1 G2 Sl P D Ok) as (ps' & E1 & E2 & E3 & E4). exists (map SText ps'). split; [exists ps'; split; [reflexivity|exact E2]|]. split; [exact E1|]. split; [exact E3|]. intros H. apply E4, H. reflexivity.
      - cbn [piece] in Px. subst xs. exists [SImage k b]. split; [reflexivity|]. cbn. split; [reflexivity|]. split; [exact Sl|reflexivity]. }
    destruct X as (ys & X1 & X2 & X3 & X4). destruct (IH (fun t Ht => G t (or_intror Ht)) _ X3) as (yss & Y1 & Y2 & Y3 & Y4). exists (ys :: yss).
    split; [constructor; assumption|]. split; [cbn [concat]; rewrite X2, Y2; reflexivity|]. split; [exact Y3|]. intros H. rewrite Y4 by (intros t Ht; apply H; right; exact Ht). apply X4. intros t ->. apply H. left. reflexivity. }
  destruct (Go s Sl) as (yss & G1 & G2 & G3 & G4). split; [|split; [exact G3|exact G4]]. rewrite G2.
  pose proof (piece_spans kind (done ++ [s0]) rest l0 yss SL G1) as Sp. pose proof SL as ((P0 & D0 & _) & _).
  destruct (reset_box (concat yss) (mkLine (ln_bbox l) (ln_dir l) [] (ln_pid l) (ln_break l)) (ln_bbox l0) P0 D0 A4 Sp) as (R1 & R2 & R3 & R4). cbn [ln_dir ln_pid ln_break] in *.
  unfold line_reset. split; [congruence|]. split; [congruence|]. split; [congruence|]. split; [exact R1|]. exists yss. split; [exact G1|]. rewrite add_all_spans. cbn [ln_spans app]. apply TextProof.filter_all. intros x Hx. apply (Sp x Hx).
Qed.
