(** Bodies of the cells of any table written, regular or not; structure of the document tree. *)
From Verif Require Import TreeSpec TreeProof WordProof WordProof2 WordProof3 WordProps.
From Verif Require DocxModel DocxSpec DocxProof DocxProps.
From Coq Require Import Lia.
Open Scope nat_scope.

Section Bodies.
Variable X : Type.
Variable newp : X.
Variable noruns : X -> bool.
(** A property of bodies kept by writing and merging. *)
Variable B : list X -> Prop.
Hypothesis Bnew : B [newp].
Hypothesis Bmove : forall acc b, B acc -> B b -> B (trim noruns acc ++ b).
Let ok (t : tc X) : Prop := B (t_body t).
Definition allb (g : grid X) : Prop := Forall (Forall (fun t => B (t_body t))) g.

Lemma split_ok c : forall row a t b, Forall ok row -> split_col c row = Some (a, t, b) -> Forall ok a /\ ok t /\ Forall ok b.
Proof.
  intros row. revert c. induction row as [|x row IH]; intros c a t b H E; [discriminate|]. inversion H as [|? ? H1 H2]; subst. cbn [split_col] in E. destruct c as [|c]; [injection E as <- <- <-; auto|].
  destruct (S c <? t_span x); [discriminate|]. destruct (split_col (S c - t_span x) row) as [[[a0 t0] b0]|] eqn:E0; [|discriminate]. injection E as <- <- <-.
  destruct (IH _ _ _ _ H2 E0) as (A & T & R). repeat split; auto.
Qed.
Lemma upd_ok f : (forall t, ok t -> ok (f t)) -> forall g r c, allb g -> allb (upd_tc r c f g).
Proof.
  intros Hf. induction g as [|row g IH]; intros r c H; [destruct r; exact H|]. inversion H as [|? ? H1 H2]; subst. cbn [upd_tc]. destruct r; constructor; auto; [|apply IH; exact H2].
  unfold upd_row. destruct (split_col c row) as [[[a t] b]|] eqn:E; [|exact H1]. destruct (split_ok c row a t b H1 E) as (A & T & R). apply Forall_app. split; [exact A|]. constructor; [apply Hf, T|exact R].
Qed.
Lemma with_pr_ok f t : ok t -> ok (with_pr f t). Proof. auto. Qed.
Lemma move_ok b acc : B b -> B acc -> B (fst (move newp noruns b acc)) /\ B (snd (move newp noruns b acc)).
Proof. intros Hb Ha. unfold move. destruct (is_empty noruns b); cbn; auto. Qed.
Lemma swallow_ok width : forall rest self acc self1 rest1 acc1, Forall ok rest -> ok self -> B acc -> swallow newp noruns width self rest acc = Some (self1, rest1, acc1) -> ok self1 /\ Forall ok rest1 /\ B acc1.
Proof.
  induction rest as [|n t IH]; intros self acc self1 rest1 acc1 Hr Hs Ha E; cbn [swallow] in E.
  - destruct (width <=? t_span self); [injection E as <- <- <-; auto|discriminate].
  - destruct (width <=? t_span self); [injection E as <- <- <-; auto|]. destruct (width <? t_span self + t_span n); [discriminate|]. inversion Hr as [|? ? H1 H2]; subst.
    eapply IH; [exact H2| | |exact E]; [exact Hs|apply move_ok; assumption].
Qed.
Lemma below_ok left width h : forall rows acc rows1 acc1, allb rows -> B acc -> grow_below newp noruns left width h rows acc = Some (rows1, acc1) -> allb rows1 /\ B acc1.
Proof.
  induction h as [|h IH]; intros rows acc rows1 acc1 Hr Ha E; cbn [grow_below] in E; [injection E as <- <-; auto|]. destruct rows as [|row rows]; [discriminate|]. inversion Hr as [|? ? H1 H2]; subst.
  destruct (split_col left row) as [[[a self] rest]|] eqn:E0; [|discriminate]. cbn in E. destruct (split_ok _ _ _ _ _ H1 E0) as (A & T & R).
  destruct (move newp noruns (t_body self) acc) as [b1 acc2] eqn:Em. pose proof (move_ok (t_body self) acc T Ha) as (M1 & M2). rewrite Em in M1, M2. cbn in M1, M2.
  destruct (swallow newp noruns width (with_body b1 self) rest acc2) as [[[self1 rest1] acc3]|] eqn:Es; [|discriminate]. cbn in E.
  destruct (swallow_ok width rest (with_body b1 self) acc2 self1 rest1 acc3 R M1 M2 Es) as (S1 & S2 & S3).
  destruct (grow_below newp noruns left width h rows acc3) as [[below acc4]|] eqn:Eb; [|discriminate]. cbn in E. injection E as <- <-.
  destruct (IH rows acc3 below acc4 H2 S3 Eb) as (I1 & I2). split; [|exact I2]. constructor; [|exact I1]. apply Forall_app. split; [exact A|]. constructor; [exact S1|exact S2].
Qed.
Lemma grow_ok top left width height : forall rows rows1, allb rows -> grow newp noruns top left width height rows = Some rows1 -> allb rows1.
Proof.
  induction top as [|top IH]; intros rows rows1 Hr E; destruct rows as [|row rows]; try discriminate; inversion Hr as [|? ? H1 H2]; subst; cbn [grow] in E.
  - destruct (split_col left row) as [[[a self] rest]|] eqn:E0; [|discriminate]. cbn [obind] in E. destruct (split_ok _ _ _ _ _ H1 E0) as (A & T & R).
    destruct (swallow newp noruns width self rest (t_body self)) as [[[self1 rest1] acc]|] eqn:Es; [|discriminate]. cbn [obind] in E.
    destruct (swallow_ok width rest self _ self1 rest1 acc R T T Es) as (S1 & S2 & S3).
    destruct (grow_below newp noruns left width (height - 1) rows acc) as [[below acc1]|] eqn:Eb; [|discriminate]. cbn [obind] in E. injection E as <-.
    destruct (below_ok _ _ _ _ _ _ _ H2 S3 Eb) as (I1 & I2). constructor; [|exact I1]. apply Forall_app. split; [exact A|]. constructor; [exact I2|exact S2].
  - destruct (grow newp noruns top left width height rows) as [g|] eqn:E0; [|discriminate]. injection E as <-. constructor; [exact H1|]. apply (IH rows g H2 E0).
Qed.
Lemma merge_ok g x y g1 : allb g -> merge newp noruns g x y = Some g1 -> allb g1.
Proof.
  intros H E. unfold merge in E. destruct (tc_box g x) as [[[[t1 l1] b1] r1]|]; [|discriminate]. cbn [obind] in E. destruct (tc_box g y) as [[[[t2 l2] b2] r2]|]; [|discriminate]. cbn [obind] in E.
  match type of E with (if ?c then _ else _) = _ => destruct c end; [discriminate|]. exact (grow_ok _ _ _ _ _ _ H E).
Qed.
Lemma borders_ok ncols f : forall l g g1, allb g -> border_all ncols f l g = Some g1 -> allb g1.
Proof.
  induction l as [|[m n] l IH]; intros g g1 H E; cbn in E; [injection E as <-; exact H|]. destruct (table_cell ncols g m n) as [a|]; [|discriminate]. cbn in E.
  apply (IH _ _ (upd_ok (with_pr f) (with_pr_ok f) g (fst a) (snd a) H) E).
Qed.
Lemma style_ok ncols i j (c : wcell X) g g1 : allb g -> set_style ncols i j c g = Some g1 -> allb g1.
Proof.
  intros H E. unfold set_style in E. destruct (table_cell ncols g i j) as [a|]; [|discriminate]. cbn [obind] in E. destruct (wc_edges c) as [[[e1 e2] e3] e4].
  destruct (border_all _ _ _ g) as [g2|] eqn:Eb; [|discriminate]. cbn [obind] in E. injection E as <-. apply (borders_ok _ _ _ _ _ H) in Eb.
  assert (U : forall f g, allb g -> allb (upd_tc (fst a) (snd a) (with_pr f) g)) by (intros f g0 H0; apply upd_ok; [apply with_pr_ok|exact H0]).
  assert (S : allb (match wc_info c with Some b => match bc_bg b with Some z => upd_tc (fst a) (snd a) (with_pr (add_shading z)) g2 | None => g2 end | None => g2 end))
    by (destruct (wc_info c) as [b|]; [destruct (bc_bg b)|]; auto).
  destruct (wc_vert c); auto.
Qed.
Lemma cell_ok ncols i j (c : wcell X) g g1 : allb g -> (forall b, wc_fill c = Some b -> B b) -> cell_make_docx newp noruns ncols i j c g = Some g1 -> allb g1.
Proof.
  intros H F E. unfold cell_make_docx in E. destruct (set_style ncols i j c g) as [g2|] eqn:Es; [|discriminate]. apply (style_ok _ _ _ _ _ _ H) in Es. cbn [obind] in E.
  destruct (wc_info c) as [b|]; [|injection E as <-; exact Es]. destruct (bc_merged b) as [nr nc]. destruct (table_cell ncols g2 i j) as [a|]; [|discriminate]. cbn [obind] in E.
  assert (M : forall o, (if nr * nc =? 1 then Some g2 else obind (table_cell ncols g2 (i + nr - 1) (j + nc - 1)) (fun z => merge newp noruns g2 a z)) = Some o -> allb o).
  { intros o Eo. destruct (nr * nc =? 1); [injection Eo as <-; exact Es|]. destruct (table_cell ncols g2 _ _) as [z|]; [|discriminate]. apply (merge_ok _ _ _ _ Es Eo). }
  destruct (if nr * nc =? 1 then _ else _) as [g3|]; [|discriminate]. specialize (M g3 eq_refl). cbn [obind] in E. injection E as <-.
  assert (U : allb (upd_tc (fst a) (snd a) (with_pr (set_width (rx1 (bc_bbox b) - rx0 (bc_bbox b))%Q)) g3)) by (apply upd_ok; [apply with_pr_ok|exact M]).
  destruct (wc_fill c) as [body|]; [|exact U]. apply upd_ok; [|exact U]. intros t _. exact (F body eq_refl).
Qed.
Lemma row_ok ncols i : forall n j cells g g1, allb g -> (forall c b, In c cells -> wc_fill c = Some b -> B b) -> row_loop newp noruns ncols i j n cells g = Some g1 -> allb g1.
Proof.
  induction n as [|n IH]; intros j cells g g1 H F E; cbn in E; [injection E as <-; exact H|]. destruct cells as [|c cells]; [discriminate|].
  destruct (cell_make_docx newp noruns ncols i j c g) as [g2|] eqn:Ec; [|discriminate]. cbn in E. apply cell_ok in Ec; [|exact H|intros b; apply F; left; reflexivity].
  apply (IH _ _ _ _ Ec (fun c b H0 => F c b (or_intror H0)) E).
Qed.
Lemma rows_ok ncols : forall src i g g1, allb g -> (forall h cells c b, In (h, cells) src -> In c cells -> wc_fill c = Some b -> B b) -> rows_loop newp noruns ncols i src g = Some g1 -> allb g1.
Proof.
  induction src as [|[h cells] src IH]; intros i g g1 H F E; cbn in E; [injection E as <-; exact H|]. destruct (pt h <? 0)%Z; [discriminate|].
  destruct (row_loop newp noruns ncols i 0 ncols cells g) as [g2|] eqn:Er; [|discriminate]. cbn in E.
  apply row_ok in Er; [|exact H|intros c b; apply (F h cells c b); left; reflexivity]. apply (IH _ _ _ Er (fun h c x b H0 => F h c x b (or_intror H0)) E).
Qed.
Lemma table_bodies src hs g : (forall h cells c b, In (h, cells) src -> In c cells -> wc_fill c = Some b -> B b) -> word_table newp noruns src = Some (hs, g) -> allb g.
Proof.
  intros F E. unfold word_table in E. set (ncols := match src with [] => 0 | (_, cells) :: _ => List.length cells end) in E.
  destruct (rows_loop newp noruns ncols 0 src (new_grid newp (List.length src) ncols)) as [g1|] eqn:Er; [|discriminate]. injection E as _ <-.
  apply rows_ok in Er; [exact Er| |exact F]. unfold new_grid, allb. apply Forall_forall. intros row Hrow. apply repeat_spec in Hrow. subst row. apply Forall_forall. intros t Ht. apply repeat_spec in Ht. subst t. exact Bnew.
Qed.
End Bodies.

(* ------------------------------------------------------------------ *)
(** * Any document *)
(** Each cell in the body, at any depth, ends with a paragraph. *)
Lemma trim_in {X} nor (l : list X) x : In x (trim nor l) -> In x l.
Proof.
  unfold trim. intros H. destruct (rev l) as [|y r] eqn:E; [exact H|]. destruct (nor y); [|exact H]. apply in_rev. rewrite E. right. apply in_rev. exact H.
Qed.
Lemma cell_cases c w : scell_docx c = Some w -> forall b, wc_fill w = Some b -> exists ms, all_some (map block_docx (snd c)) = Some ms /\ b = cell_docx ms.
Proof.
  destruct c as [[info v] bs]. intros E b Hb. cbn in E. destruct info as [i|]; [|injection E as <-; discriminate].
  destruct (all_some (map block_docx bs)) as [ms|] eqn:Em; [|discriminate]. injection E as <-. cbn in Hb. exists ms. split; [exact Em|]. destruct ms; [discriminate|]. injection Hb as <-. reflexivity.
Qed.
(** Induction over parsed blocks. *)
Section Induct.
Variable P : sblock -> Prop.
Hypothesis HT : forall t, P (ST t).
Hypothesis HB : forall before rows, (forall h cells info v bs b, In (h, cells) rows -> In (info, v, bs) cells -> In b bs -> P b) -> P (STable before rows).
Fixpoint sblock_ind0 (HB0 : forall before rows, Forall (fun row : Q * list scell => Forall (fun c : scell => Forall P (snd c)) (snd row)) rows -> P (STable before rows)) (b : sblock) : P b :=
  match b with
  | ST t => HT t
  | STable before rows => HB0 before rows
      ((fix go (rows : list (Q * list scell)) : Forall (fun row : Q * list scell => Forall (fun c : scell => Forall P (snd c)) (snd row)) rows :=
        match rows with
        | [] => Forall_nil _
        | row :: t => Forall_cons row
            ((fix goc (cells : list scell) : Forall (fun c : scell => Forall P (snd c)) cells :=
               match cells with
               | [] => Forall_nil _
               | c :: t => Forall_cons c
                   ((fix gob (bs : list sblock) : Forall P bs := match bs with [] => Forall_nil _ | x :: t => Forall_cons x (sblock_ind0 HB0 x) (gob t) end) (snd c)) (goc t)
               end) (snd row)) (go t)
        end) rows)
  end.
Lemma sblock_ind' b : P b.
Proof.
  apply sblock_ind0. clear b. intros before rows H. apply HB. intros h cells info v bs b H1 H2 H3. rewrite Forall_forall in H. specialize (H _ H1). cbn [snd] in H. rewrite Forall_forall in H. specialize (H _ H2). cbn [snd] in H.
  rewrite Forall_forall in H. exact (H b H3).
Qed.
End Induct.

(** The rows that were written. *)
Lemma rows_src n rows src : all_some (map (srow_docx n) rows) = Some src ->
  forall h ws w, In (h, ws) src -> In w ws -> exists cells c, In (h, cells) rows /\ In c cells /\ scell_docx c = Some w.
Proof.
  intros E. apply all_some_f2 in E. induction E as [|row row' rows src E _ IH]; intros h ws w H1 H2; [destruct H1|].
  destruct H1 as [->|H1].
  - unfold srow_docx in E. destruct (all_some (firstn n (map scell_docx (snd row)))) as [l|] eqn:El; [|discriminate]. injection E as <- <-. apply all_some_spec in El.
    assert (Hw : In (Some w) (firstn n (map scell_docx (snd row)))) by (rewrite El; apply in_map; exact H2).
    assert (Hw' : In (Some w) (map scell_docx (snd row))).
    { clear - Hw. revert Hw. generalize (map scell_docx (snd row)). induction n as [|n IH]; intros l H; [destruct H|]. destruct l; [destruct H|]. cbn in H. destruct H as [H|H]; [left; exact H|right; apply IH, H]. }
    apply in_map_iff in Hw'. destruct Hw' as (c & Ec & Hc). exists (snd row), c. split; [left; apply surjective_pairing|]. split; [exact Hc|exact Ec].
  - destruct (IH h ws w H1 H2) as (cells & c & A & C). exists cells, c. split; [right; exact A|exact C].
Qed.
