From Verif Require Import LayoutSpec FlowProof FlowProof2 GraphProof AssignProof TextProof LayoutProof LayoutFormat.
From Coq Require Import List Permutation Lia.
Open Scope Q_scope.

(* ---------------- shapes only change their meaning ---------------- *)
Definition alike (a b : list shape) : Prop := Forall2 same_but_meaning a b.
Lemma sbm_trans a b c : same_but_meaning a b -> same_but_meaning b c -> same_but_meaning a c.
Proof. unfold same_but_meaning. intros [->|(k & Hk & ->)] [->|(j & Hj & ->)]; auto; right; [exists j|exists k|exists j]; auto. Qed.
Lemma alike_refl a : alike a a.
Proof. induction a; constructor; [left; reflexivity|assumption]. Qed.
Lemma alike_trans a b c : alike a b -> alike b c -> alike a c.
Proof. intros H. revert c. induction H; intros c H'; inversion H'; subst; constructor; [eapply sbm_trans; eauto|apply IHForall2; assumption]. Qed.
Lemma alike_length a b : alike a b -> List.length a = List.length b.
Proof. induction 1; cbn [List.length]; congruence. Qed.
Lemma alike_nth a b k : alike a b -> sh_bbox (nth k b empty_stroke) = sh_bbox (nth k a empty_stroke).
Proof. intros H. revert k. induction H as [|x y a b S H IH]; intros [|k]; try reflexivity; [|apply IH]. cbn [nth]. destruct S as [->|(j & _ & ->)]; reflexivity. Qed.
Lemma upd_alike t l : In t meanings -> forall k, alike l (upd_at k (fun s => BorderModel.set_type s t) l).
Proof.
  intros Ht. induction l as [|x l IH]; intros [|k]; cbn [upd_at]; try (apply alike_refl); constructor; try (left; reflexivity); try (apply alike_refl); try apply IH.
  right. exists t. auto.
Qed.
Lemma retype_alike t i w : In t meanings -> alike (w_shapes w) (w_shapes (retype t i w)) /\ w_next (retype t i w) = w_next w.
Proof. intros Ht. destruct i as [|k]; cbn [retype]; [split; [apply alike_refl|reflexivity]|]. split; [apply upd_alike; exact Ht|reflexivity]. Qed.
Lemma retype_all_alike t l : In t meanings -> forall w, alike (w_shapes w) (w_shapes (retype_all t l w)).
Proof.
  intros Ht. induction l as [|s l IH]; intros w; [apply alike_refl|]. change (retype_all t (s :: l) w) with (retype_all t l (retype t (sh_uri s) w)).
  eapply alike_trans; [apply retype_alike; exact Ht|apply IH].
Qed.
Lemma is_border : In R_BORDER meanings.
Proof. left. reflexivity. Qed.
Lemma is_shading : In R_SHADING meanings.
Proof. right. left. reflexivity. Qed.
Lemma mark_alike st w : alike (w_shapes w) (w_shapes (mark st w)).
Proof.
  unfold mark. eapply alike_trans; [apply (retype_all_alike R_BORDER); exact is_border|]. eapply alike_trans; [apply (retype_all_alike R_BORDER); exact is_border|]. apply retype_all_alike; exact is_shading.
Qed.
Lemma finish_alike k w p acc w' ts : finish k w p acc = Ok (w', ts) -> alike (w_shapes w) (w_shapes w').
Proof.
  unfold finish. destruct p as [| |st]; try discriminate; [intros E; injection E as <- <-; apply alike_refl|].
  destruct (rect_bool _); intros E; injection E as <- <-; [apply mark_alike|apply alike_refl].
Qed.
Lemma each_alike {A} (f : world -> A -> res (world * list new_table)) gs :
  (forall w g w' ts, f w g = Ok (w', ts) -> alike (w_shapes w) (w_shapes w')) ->
  forall w w' ts, each_group f w gs = Ok (w', ts) -> alike (w_shapes w) (w_shapes w').
Proof.
  intros H. induction gs as [|g gs IH]; intros w w' ts E; cbn [each_group] in E; [injection E as <- <-; apply alike_refl|].
  destruct (f w g) as [[w1 t1]| |] eqn:E1; try discriminate. cbn [bind fst] in E. destruct (each_group f w1 gs) as [[w2 t2]| |] eqn:E2; try discriminate.
  cbn [bind fst snd] in E. injection E as <- <-. eapply alike_trans; eauto.
Qed.
Lemma alike_format W k b f : alike W b -> format_of (nth k b empty_stroke) f -> format_of (nth k W empty_stroke) f.
Proof.
  intros H. revert k. induction H as [|x y a b S H IH]; intros [|k] F; try exact F; [|apply (IH k F)]. cbn [nth] in *. destruct S as [->|(j & _ & ->)]; exact F.
Qed.
Lemma kins_alike a b : kins a b -> alike a b.
Proof.
  induction 1 as [|x y a b K _ IH]; constructor; [|exact IH]. destruct K as [->|[K E]]; [left; reflexivity|right]. exists (sh_type y). split; [|exact E].
  unfold text_meanings, meanings in *. cbn in *. tauto.
Qed.
Section O.
Variable order : list nat -> list nat.
Variable rorder : list (Q * Q) -> list (Q * Q).
Variable ids : nat -> nat.
Variable set_ : settings.
Lemma lattice_alike w ss w' ts : lattice order set_ w ss = Ok (w', ts) -> alike (w_shapes w) (w_shapes w').
Proof.
  unfold lattice. destruct (ls_all ss); [intros E; injection E as <- <-; apply alike_refl|]. destruct (group_by_connectivity _ _ _ _); [|discriminate].
  apply each_alike. intros w0 g w1 t1 E. eapply finish_alike. exact E.
Qed.
Lemma stream_one_alike box boxes ss w g w' ts : stream_one order rorder set_ box boxes ss w g = Ok (w', ts) -> alike (w_shapes w) (w_shapes w').
Proof.
  unfold stream_one. destruct g as [|l0 g]; [intros E; injection E as <- <-; apply alike_refl|]. cbv zeta.
  destruct (existsb _ _); [discriminate|]. destruct (stream_borders _ _ _ _ _ _ _) as [st es].
  set (w1 := retype_all _ _ _). assert (A : alike (w_shapes w) (w_shapes w1)) by (apply retype_all_alike; exact is_border).
  destruct (filter shape_bool _) as [|s0 strokes]; [intros E; injection E as <- <-; exact A|]. intros E. eapply alike_trans; [exact A|]. eapply finish_alike. exact E.
Qed.
Lemma stream_alike w box bs ss w' ts : stream order rorder set_ w box bs ss = Ok (w', ts) -> alike (w_shapes w) (w_shapes w').
Proof.
  unfold stream. destruct (collect_stream_lines _ _ _ _ _); [|discriminate]. apply each_alike. intros w0 g w1 t1 E. eapply stream_one_alike. exact E.
Qed.
Lemma layout_table_alike w box bs ss w' ts : layout_table w box bs ss = Ok (w', ts) -> w' = w.
Proof. unfold layout_table. destruct (page_layout _ _); [|intros E; injection E as <- <-; reflexivity]. destruct (finish _ _ _ _) as [[w1 t1]| |]; intros E; try discriminate. injection E as <- <-. reflexivity. Qed.

(* ---------------- one layout, all layouts ---------------- *)
Section P.
Variable PT : glyph * list style -> Prop.
Variable PC : option bcell * lshapes -> Prop.
Notation ok := (ok PT PC).
Variable A : list nat.
Variable W : list shape.
Variable Pn : forall i, PC (i, no_shapes).
Variable Ps : forall i l, incl l A -> (forall k, In k l -> rect_bool (rinter (info_box i) (sh_bbox (nth k W empty_stroke))) = true) -> forall x y u v, incl u l -> incl v l -> PC (i, mkLS l x y u v).
Variable Pi : forall c, PC c -> incl (members (snd c)) A.
Variable Pf : forall g st f, PT (g, st) -> (exists k, In k A /\ (k < List.length W)%nat /\ format_of (nth k W empty_stroke) f) -> PT (g, st ++ [f]).
Variable Ho : forall l, Permutation l (order l).
Lemma place_ok w bs ss ts w' bs' ss' : alike W (w_shapes w) -> incl (members ss) A -> ok bs ->
  place_tables ids w bs ss ts = Ok (w', bs', ss') -> alike W (w_shapes w') /\ incl (members ss') A /\ ok bs'.
Proof.
  intros Hw Hs Hb E. destruct (place_tables_ok PT PC Pn ids w bs ss ts w' bs' ss') as (X1 & X2 & Xl & Xm & X3); [|exact Hb|exact E|].
  - intros i l Hl Hk x y u v Hu Hv. apply Ps; [intros k Hk'; apply Hs, in_or_app; left; apply Hl; exact Hk'| |exact Hu|exact Hv]. intros k Hk'. specialize (Hk k Hk'). unfold shape_at in Hk. rewrite (alike_nth W) in Hk by exact Hw. exact Hk.
  - rewrite X3. split; [exact Hw|]. split; [|exact X1]. unfold members in *. rewrite Xl, Xm. intros k Hk. apply Hs. apply in_app_or in Hk. apply in_or_app. destruct Hk as [Hk|Hk]; [left; apply X2; exact Hk|right; exact Hk].
Qed.
Lemma split_back_ok ids' tol sep bs out : (forall b, In b bs -> okf PT b) -> split_back order ids' tol sep bs = Some out -> forall b, In b out -> okf PT b.
Proof.
  intros H E b Hb. unfold split_back in E. rewrite (part_spec order Ho) in E. unfold lines_split_back in E.
  set (L := flat_map _ _) in E. destruct (group_perm same_source order Ho L) as (gs & Eg & Pg). rewrite Eg in E. cbn [option_map] in E. injection E as <-.
  apply sort_f_in in Hb. apply filter_In in Hb. destruct Hb as [Hb _]. apply in_app_or in Hb. destruct Hb as [Hb|Hb]; [apply filter_In in Hb; apply H; apply Hb|].
  assert (HL : forall l, In l L -> forall g, In g (styled (ln_spans l)) -> PT g).
  { intros l Hl g Hg. apply in_flat_map in Hl. destruct Hl as (x & Hx & Hl). apply filter_In in Hx. apply filter_In in Hl. apply (H x (proj1 Hx) l g (proj1 Hl) Hg). }
  assert (S : forall gg k, In b (source_blocks ids' k gg) -> exists g id, In g gg /\ b = source_block id g).
  { clear. induction gg as [|g gg IH]; intros k Hb; [destruct Hb|]. cbn [source_blocks] in Hb. destruct Hb as [<-|Hb]; [exists g, (ids' k); split; [left; reflexivity|reflexivity]|].
    destruct (IH _ Hb) as (g' & id & Hg & E). exists g', id. split; [right; exact Hg|exact E]. }
  destruct (S _ _ Hb) as (g & id & Hg & ->). unfold source_block, okf. cbn [f_lines b_lines]. apply set_pid_ok. apply okl_filter.
  apply in_map_iff in Hg. destruct Hg as (g0 & <- & Hg0). intros l x Hl Hx. apply (HL l); [|exact Hx].
  eapply Permutation_in; [exact Pg|]. apply in_concat. exists g0. split; [exact Hg0|]. eapply Permutation_in; [apply Permutation_sym; apply lines_sort_perm|exact Hl].
Qed.
Lemma PTf g st more : PT (g, st) -> (forall f, In f more -> exists k, In k A /\ (k < List.length W)%nat /\ format_of (nth k W empty_stroke) f) -> PT (g, st ++ more).
Proof.
  revert st. induction more as [|f more IH]; intros st H1 H2; [rewrite app_nil_r; exact H1|]. replace (st ++ f :: more) with ((st ++ [f]) ++ more) by (rewrite <- app_assoc; reflexivity).
  apply IH; [|intros x Hx; apply H2; right; exact Hx]. apply Pf; [exact H1|apply H2; left; reflexivity].
Qed.
Lemma reformatted_ok w ks b b' : alike W w -> incl ks A -> reformatted w ks b b' -> okb PT PC b -> okb PT PC b'.
Proof.
  intros Hw Hk [tb cs|i bb ls ls' D S]; [auto|]. intros H. rewrite okb_text in *. rewrite okl_iff in *. cbn [b_lines] in *. intros [g st] Hg. destruct (S _ Hg) as (st0 & more & H1 & H2 & H3).
  cbn [fst snd] in *. rewrite H2. apply PTf; [apply H; exact H1|]. intros f Hf. destruct (H3 f Hf) as (k & Hk' & L & F). exists k. split; [apply Hk; exact Hk'|]. split; [rewrite (alike_length _ _ Hw); exact L|]. eapply alike_format; eauto.
Qed.
Lemma format_alike w n ss w' bs bs' : format_blocks (mkW (w_shapes w) n) (style_shapes (mkW (w_shapes w) n) ss) bs = (w', bs') -> alike W (w_shapes w) -> incl (members ss) A ->
  alike W (w_shapes w') /\ (ok bs -> ok bs').
Proof.
  intros E Hw Hs. destruct (format_blocks_from _ _ (mkW (w_shapes w) n) _ _ (w_shapes w) (kins_refl _) E) as (K & _ & F). split; [eapply alike_trans; [exact Hw|apply kins_alike; exact K]|].
  intros Hb. clear E K. assert (Hk : incl (style_shapes (mkW (w_shapes w) n) ss) A).
  { intros k Hk. apply Hs. unfold style_shapes, members in *. rewrite !in_app_iff in *. destruct Hk as [Hk|[Hk|Hk]]; auto. apply filter_In in Hk. destruct Hk. auto. }
  induction F as [|x y xs ys R F IH]; [exact Hb|]. intros b [<-|Hin]; [eapply reformatted_ok; [exact Hw|exact Hk|exact R|apply Hb; left; reflexivity]|].
  apply IH; [intros z Hz; apply Hb; right; exact Hz|exact Hin].
Qed.
Lemma level_ok top w box bs ss w' bs' : alike W (w_shapes w) -> incl (members ss) A -> ok bs ->
  level order rorder ids set_ top w box bs ss = Ok (w', bs') -> alike W (w_shapes w') /\ ok bs'.
Proof.
  intros Hw Hs Hb E. unfold level in E.
  assert (S0 : forall w0 bs0 ss0, (if top then bind (layout_table w box bs ss) (fun p => place_tables ids (fst p) bs ss (snd p)) else Ok (w, bs, ss)) = Ok (w0, bs0, ss0) ->
            alike W (w_shapes w0) /\ incl (members ss0) A /\ ok bs0).
  { intros w0 bs0 ss0 E0. destruct top; [|injection E0 as <- <- <-; auto]. destruct (layout_table w box bs ss) as [[w1 t1]| |] eqn:El; try discriminate.
    apply layout_table_alike in El. subst w1. cbn [bind fst snd] in E0. eapply place_ok; eauto. }
  destruct (if top then _ else _) as [[[w0 bs0] ss0]| |] eqn:E0; try discriminate. destruct (S0 _ _ _ eq_refl) as (H1 & H2 & H3). clear S0. cbn [bind] in E.
  destruct (lattice order set_ w0 ss0) as [[w1 t1]| |] eqn:E1; try discriminate. apply lattice_alike in E1. cbn [bind fst snd] in E.
  destruct (place_tables ids w1 bs0 ss0 t1) as [[[w2 bs2] ss2]| |] eqn:E2; try discriminate.
  destruct (place_ok w1 bs0 ss0 t1 w2 bs2 ss2 (alike_trans _ _ _ H1 E1) H2 H3 E2) as (H4 & H5 & H6). cbn [bind] in E.
  destruct (stream order rorder set_ w2 box bs2 ss2) as [[w3 t3]| |] eqn:E3; try discriminate. apply stream_alike in E3. cbn [bind fst snd] in E.
  destruct (place_tables ids w3 bs2 ss2 t3) as [[[w4 bs4] ss4]| |] eqn:E4; try discriminate.
  destruct (place_ok w3 bs2 ss2 t3 w4 bs4 ss4 (alike_trans _ _ _ H4 E3) H5 H6 E4) as (H7 & H8 & H9). cbn [bind] in E.
  destruct (split_back _ _ _ _ _) as [out|] eqn:E5; [|discriminate]. injection E as E.
  unfold text_format in E. destruct (format_alike _ _ _ _ _ _ E H7 H8) as [E6 E7]. split; [exact E6|]. apply E7.
  apply back_ok; [apply tabs_ok; exact H9|]. eapply split_back_ok; [|exact E5]. intros b Hb'. eapply flat_ok; eauto.
Qed.
Lemma parse_cells_ok rec cs : (forall w b bs ss w' out, alike W (w_shapes w) -> incl (members ss) A -> ok bs -> rec w b bs ss = Ok (w', out) -> alike W (w_shapes w') /\ ok out) ->
  forall w w' cs', alike W (w_shapes w) -> (forall c, In c cs -> PC (fst c) /\ ok (snd c)) -> parse_cells rec w cs = Ok (w', cs') ->
  alike W (w_shapes w') /\ (forall c, In c cs' -> PC (fst c) /\ ok (snd c)).
Proof.
  intros Hr. induction cs as [|c cs IH]; intros w w' cs' Hw H E; cbn [parse_cells] in E; [injection E as <- <-; split; [exact Hw|intros c []]|].
  destruct (H c (or_introl eq_refl)) as [C1 C2].
  match type of E with bind ?X _ = _ => set (here := X) in E; destruct here as [[w1 c1]| |] eqn:E1; try discriminate end. cbn [bind fst snd] in E.
  assert (X : alike W (w_shapes w1) /\ PC (fst c1) /\ ok (snd c1)).
  { subst here. destruct (lc_info c) as [i|] eqn:Ei; [|injection E1 as <- <-; auto]. destruct (rect_bool (bc_bbox i)); [|injection E1 as <- <-; auto].
    destruct (rec w (working_box i) (lc_blocks c) (lc_shapes c)) as [[w2 o2]| |] eqn:Er; try discriminate. cbn [bind fst snd] in E1. injection E1 as <- <-. cbn [fst snd].
    destruct (Hr _ _ _ _ _ _ Hw (Pi _ C1) C2 Er) as [Y1 Y2]. split; [exact Y1|]. split; [|exact Y2]. destruct c as [[ci cs0] cb]. cbn [lc_info lc_shapes fst snd] in *. rewrite Ei in C1. exact C1. }
  destruct X as (X1 & X2). destruct (parse_cells rec w1 cs) as [[w2 cs2]| |] eqn:E2; try discriminate. cbn [bind fst snd] in E. injection E as <- <-.
  destruct (IH w1 w2 cs2 X1 (fun x Hx => H x (or_intror Hx)) E2) as [Y1 Y2]. split; [exact Y1|]. intros x [<-|Hx]; [exact X2|apply Y2; exact Hx].
Qed.
Lemma parse_tables_ok rec bs : (forall w b bs ss w' out, alike W (w_shapes w) -> incl (members ss) A -> ok bs -> rec w b bs ss = Ok (w', out) -> alike W (w_shapes w') /\ ok out) ->
  forall w w' bs', alike W (w_shapes w) -> ok bs -> parse_tables rec w bs = Ok (w', bs') -> alike W (w_shapes w') /\ ok bs'.
Proof.
  intros Hr. induction bs as [|b bs IH]; intros w w' bs' Hw H E; cbn [parse_tables] in E; [injection E as <- <-; split; [exact Hw|intros b []]|].
  match type of E with bind ?X _ = _ => set (here := X) in E; destruct here as [[w1 b1]| |] eqn:E1; try discriminate end. cbn [bind fst snd] in E.
  assert (X : alike W (w_shapes w1) /\ okb PT PC b1).
  { assert (Hb : okb PT PC b) by (apply H; left; reflexivity). subst here. destruct b as [t|bb cs]; [injection E1 as <- <-; auto|].
    destruct (parse_cells rec w cs) as [[w2 c2]| |] eqn:Ec; try discriminate. cbn [bind fst snd] in E1. injection E1 as <- <-.
    destruct (parse_cells_ok rec cs Hr w w2 c2 Hw (proj1 (okb_table PT PC bb cs) Hb) Ec) as [Y1 Y2]. split; [exact Y1|apply okb_table; exact Y2]. }
  destruct X as (X1 & X2). destruct (parse_tables rec w1 bs) as [[w2 bs2]| |] eqn:E2; try discriminate. cbn [bind fst snd] in E. injection E as <- <-.
  destruct (IH w1 w2 bs2 X1 (fun x Hx => H x (or_intror Hx)) E2) as [Y1 Y2]. split; [exact Y1|]. intros x [<-|Hx]; [exact X2|apply Y2; exact Hx].
Qed.
Lemma parse_ok fuel : forall top w box bs ss w' out, alike W (w_shapes w) -> incl (members ss) A -> ok bs ->
  layout_parse order rorder ids set_ fuel top w box bs ss = Ok (w', out) -> alike W (w_shapes w') /\ ok out.
Proof.
  induction fuel as [|fuel IH]; intros top w box bs ss w' out Hw Hs Hb E; cbn [layout_parse] in E; [discriminate|].
  destruct (level order rorder ids set_ top w box bs ss) as [[w1 b1]| |] eqn:E1; try discriminate. cbn [bind fst snd] in E.
  destruct (level_ok _ _ _ _ _ _ _ Hw Hs Hb E1) as [L1 L2]. eapply parse_tables_ok; [|exact L1|exact L2|exact E].
  intros w2 b bs2 ss2 w3 o H1 H2 H3 H4. eapply IH; eauto.
Qed.
End P.
End O.
