(** Lemmas of C72. *)
From Verif Require Import RunSpec ColorProof ColorProps ExtractProps.
From Coq Require Import Lia.
Open Scope Z_scope.

(* ------------------------------------------------------------------ *)
(** * Content *)
Lemma flush_text b : flat_map content_text (flush b) = b.
Proof. destruct b; cbn; rewrite ?app_nil_r; reflexivity. Qed.
Lemma content_spec s : forall buf, flat_map content_text (text_content buf s) = buf ++ breaks_read s.
Proof.
  induction s as [|c s IH]; intros buf; cbn [text_content breaks_read map]; [rewrite flush_text, app_nil_r; reflexivity|].
  fold (breaks_read s). destruct (Z.eqb_spec c 9) as [->|N9].
  - rewrite flat_map_app, flush_text. cbn [flat_map content_text]. rewrite IH. reflexivity.
  - destruct (Z.eqb_spec c 10) as [->|N10]; [cbn [orb]; rewrite flat_map_app, flush_text; cbn [flat_map content_text]; rewrite IH; reflexivity|].
    cbn [orb]. destruct (Z.eqb_spec c 13) as [->|N13]; [rewrite flat_map_app, flush_text; cbn [flat_map content_text]; rewrite IH; reflexivity|].
    rewrite IH, <- app_assoc. reflexivity.
Qed.
Lemma content_plain s : forall buf c, In c (text_content buf s) -> match c with C_link _ _ _ => False | _ => True end.
Proof.
  assert (F : forall buf c, In c (flush buf) -> match c with C_link _ _ _ => False | _ => True end) by (intros [|] c; [intros []|intros [<-|[]]; exact I]).
  induction s as [|x s IH]; intros buf c; cbn [text_content]; [apply F|].
  destruct (x =? 9); [intros H; apply in_app_or in H; destruct H as [H|[<-|H]]; [apply (F _ _ H)|exact I|apply (IH _ _ H)]|].
  destruct ((x =? 10) || (x =? 13)); [intros H; apply in_app_or in H; destruct H as [H|[<-|H]]; [apply (F _ _ H)|exact I|apply (IH _ _ H)]|].
  apply IH.
Qed.
Lemma strip_blank s : strip s = [] <-> blank s.
Proof.
  assert (D : forall l, drop_while is_white l = [] <-> blank l).
  { induction l as [|c l IH]; [split; [intros _ c []|reflexivity]|]. cbn [drop_while]. destruct (is_white c) eqn:E.
    - rewrite IH. split; intros H; [intros x [<-|Hx]; [exact E|apply H, Hx]|intros x Hx; apply H; right; exact Hx].
    - split; [discriminate|]. intros H. rewrite (H c (or_introl eq_refl)) in E. discriminate. }
  unfold strip. split; intros H.
  - assert (R : forall l : list Z, rev l = [] -> l = []) by (intros l Hl; apply (f_equal (@rev Z)) in Hl; rewrite rev_involutive in Hl; exact Hl).
    apply R, D in H. assert (B : blank (drop_while is_white s)) by (intros c Hc; apply H, in_rev; rewrite rev_involutive; exact Hc).
    apply D. clear R D H. induction s as [|c s IH]; [reflexivity|]. cbn [drop_while] in *. destruct (is_white c) eqn:E; [apply IH, B|]. rewrite (B c (or_introl eq_refl)) in E. discriminate.
  - rewrite (proj2 (D s) H). reflexivity.
Qed.

(* ------------------------------------------------------------------ *)
(** * Properties *)
Section K.
Variable K : Z -> bool.
Notation sel := (filter (fun q => K (rank q))).
Lemma sel_put p l : sel (put p l) = if K (rank p) then sel (put p l) else sel l.
Proof.
  destruct (K (rank p)) eqn:E; [reflexivity|]. induction l as [|q l IH]; cbn [put filter]; [rewrite E; reflexivity|].
  destruct (rank p <? rank q); cbn [filter]; [rewrite E; reflexivity|]. rewrite IH. reflexivity.
Qed.
Lemma sel_put_none p l : K (rank p) = true -> sel l = [] -> sel (put p l) = [p].
Proof.
  intros E H. induction l as [|q l IH]; cbn [put filter]; [rewrite E; reflexivity|]. cbn [filter] in H. destruct (K (rank q)) eqn:Eq; [discriminate|].
  destruct (rank p <? rank q); cbn [filter]; [rewrite E, Eq, H; reflexivity|]. rewrite Eq. apply IH, H.
Qed.
Lemma sel_drop k l : K k = false -> sel (filter (fun q => negb (rank q =? k)) l) = sel l.
Proof.
  intros E. induction l as [|q l IH]; [reflexivity|]. cbn [filter]. destruct (Z.eqb_spec (rank q) k) as [->|N]; cbn [negb filter]; [rewrite E; exact IH|]. rewrite IH. reflexivity.
Qed.
Lemma sel_set_other p l : K (rank p) = false -> sel (set_prop p l) = sel l.
Proof. intros E. unfold set_prop. rewrite sel_put, E. apply sel_drop, E. Qed.
Lemma sel_set_none p l : K (rank p) = true -> sel l = [] -> sel (set_prop p l) = [p].
Proof.
  intros E H. unfold set_prop. apply sel_put_none; [exact E|]. revert H. clear E. induction l as [|q l IH]; [reflexivity|]. cbn [filter]. destruct (K (rank q)) eqn:Eq; [discriminate|].
  destruct (rank q =? rank p); cbn [negb filter]; [|rewrite Eq]; exact IH.
Qed.
Lemma sel_cons p l : sel (p :: l) = if K (rank p) then p :: sel l else sel l. Proof. reflexivity. Qed.
(** A getter that looks at these properties only. *)
Lemma getter {B} (f : prop -> list B) l : (forall q, K (rank q) = false -> f q = []) -> flat_map f l = flat_map f (sel l).
Proof. intros H. induction l as [|q l IH]; [reflexivity|]. cbn [flat_map filter]. destruct (K (rank q)) eqn:E; [cbn [flat_map]; rewrite IH; reflexivity|]. rewrite (H q E), IH. reflexivity. Qed.
End K.
Lemma set_same p l : filter (fun q => Z.eqb (rank q) (rank p)) (set_prop p l) = [p].
Proof.
  unfold set_prop. apply (sel_put_none (fun k => Z.eqb k (rank p))); [apply Z.eqb_refl|]. induction l as [|q l IH]; [reflexivity|]. cbn [filter]. destruct (rank q =? rank p) eqn:E; cbn [negb filter]; [|rewrite E]; exact IH.
Qed.
Lemma in_put p l q : In q (put p l) <-> q = p \/ In q l.
Proof.
  induction l as [|x l IH]; cbn [put]; [cbn; intuition|]. destruct (rank p <? rank x); cbn [In]; [intuition|]. rewrite IH. intuition.
Qed.
Lemma in_set p l q : In q (set_prop p l) <-> q = p \/ (In q l /\ rank q <> rank p).
Proof. unfold set_prop. rewrite in_put, filter_In, negb_true_iff, Z.eqb_neq. reflexivity. Qed.

(* ------------------------------------------------------------------ *)
(** * Styles *)
Notation folded c := (fold_left (fun l st => style_prop c st l)).
(** The property a style adds: at the front or in place. *)
Lemma style_other c st l : st_type st <> R_HIGHLIGHT -> st_type st <> R_UNDERLINE -> st_type st <> R_STRIKE -> style_prop c st l = l.
Proof. unfold style_prop. destruct (st_type st); intros A B C; try reflexivity; contradiction. Qed.
(** Ranks touched by styles. *)
Lemma style_sel K c st l : K 8 = false \/ st_type st <> R_STRIKE -> K 25 = false /\ K 29 = false \/ st_type st <> R_HIGHLIGHT -> K 26 = false \/ st_type st <> R_UNDERLINE ->
  filter (fun q => K (rank q)) (style_prop c st l) = filter (fun q => K (rank q)) l.
Proof.
  intros A B C. unfold style_prop. destruct (st_type st) eqn:E; try reflexivity.
  - destruct B as [[B B2]|B]; [|contradiction]. destruct (set_char_shading (st_color st)); [apply sel_set_other, B|]. rewrite sel_cons. cbn [rank]. rewrite B2. reflexivity.
  - destruct C as [C|C]; [|contradiction]. destruct (c =? st_color st); [apply sel_set_other, C|]. rewrite sel_cons. cbn [rank]. rewrite C. reflexivity.
  - destruct A as [A|A]; [|contradiction]. apply sel_set_other, A.
Qed.
Lemma folded_sel K c sts : forall l, (forall st, In st sts -> (K 8 = false \/ st_type st <> R_STRIKE) /\ (K 25 = false /\ K 29 = false \/ st_type st <> R_HIGHLIGHT) /\ (K 26 = false \/ st_type st <> R_UNDERLINE)) ->
  filter (fun q => K (rank q)) (folded c sts l) = filter (fun q => K (rank q)) l.
Proof.
  induction sts as [|st sts IH]; intros l H; [reflexivity|]. cbn [fold_left]. rewrite IH by (intros x Hx; apply H; right; exact Hx).
  destruct (H st (or_introl eq_refl)) as (A & B & C). apply style_sel; assumption.
Qed.
Lemma rtype_eqb_iff a b : rtype_eqb a b = true <-> a = b.
Proof. destruct a, b; cbn; split; intros H; (discriminate H || reflexivity). Qed.
Lemma folded_strike c sts : forall l, In (P_strike true) (folded c sts l) <-> In (P_strike true) l \/ exists st, In st sts /\ st_type st = R_STRIKE.
Proof.
  induction sts as [|st sts IH]; intros l; cbn [fold_left].
  - split; [left; assumption|]. intros [H|(st & [] & _)]. exact H.
  - rewrite IH. assert (E : In (P_strike true) (style_prop c st l) <-> In (P_strike true) l \/ st_type st = R_STRIKE).
    { unfold style_prop. destruct (st_type st) eqn:T; try (split; [left; assumption|intros [H|H]; [exact H|discriminate]]).
      - destruct (set_char_shading (st_color st)); [rewrite in_set|cbn [In]]; (split; [intros [H|H]; [discriminate|left; tauto]|intros [H|H]; [right; try split; try exact H; cbn; lia|discriminate]]).
      - destruct (c =? st_color st); [rewrite in_set|cbn [In]]; (split; [intros [H|H]; [discriminate|left; tauto]|intros [H|H]; [right; try split; try exact H; cbn; lia|discriminate]]).
      - rewrite in_set. split; [intros _; right; reflexivity|left; reflexivity]. }
    rewrite E. split.
    + intros [[H|H]|(x & Hx & H)]; [left; exact H|right; exists st; split; [left; reflexivity|exact H]|right; exists x; split; [right; exact Hx|exact H]].
    + intros [H|(x & [<-|Hx] & H)]; [left; left; exact H|left; right; exact H|right; exists x; auto].
Qed.

(** Highlights: ranks 25 and 29. *)
Definition mark_of (p : prop) : list Z := match p with P_highlight h => [highlight_color h] | P_shd d => [denotes d] | _ => [] end.
Definition line_of (c : Z) (p : prop) : list Z := match p with P_u None => [c] | P_u (Some d) => [denotes d] | _ => [] end.
Definition KM (k : Z) : bool := (k =? 25) || (k =? 29).
Definition KU (k : Z) : bool := k =? 26.
Lemma mark_getter l : flat_map mark_of l = flat_map mark_of (filter (fun q => KM (rank q)) l).
Proof. apply getter. intros q. destruct q; cbn; try reflexivity; discriminate. Qed.
Lemma line_getter c l : flat_map (line_of c) l = flat_map (line_of c) (filter (fun q => KU (rank q)) l).
Proof. apply getter. intros q. destruct q; cbn; try reflexivity; discriminate. Qed.
Lemma highlight_value v h : set_char_shading v = Highlight h -> highlight_color h = v.
Proof. intros H. apply C45_highlight in H. repeat (destruct H as [H|H]; [injection H as -> ->; reflexivity|]). injection H as -> ->. reflexivity. Qed.
Lemma fill_value v : color_value v -> forall d, set_char_shading v = Fill d -> exists ds, d = Some ds /\ denotes ds = v.
Proof. intros H d E. destruct (C45_shading v H) as [(h & E2)|(ds & E2 & W)]; [congruence|]. exists ds. rewrite E2 in E. injection E as <-. split; [reflexivity|]. apply W. Qed.
Lemma attribute_value v : color_value v -> exists ds, color_attribute v = Some ds /\ denotes ds = v.
Proof. intros H. destruct (C45_color_attribute v H) as (ds & E & W). exists ds. split; [exact E|]. apply W. Qed.
Lemma style_mark c st l : st_type st = R_HIGHLIGHT -> color_value (st_color st) ->
  exists p, mark_of p = [st_color st] /\ In p (style_prop c st l) /\ (forall q, In q (style_prop c st l) -> q = p \/ In q l) /\
            (filter (fun q => KM (rank q)) l = [] -> filter (fun q => KM (rank q)) (style_prop c st l) = [p]).
Proof.
  intros T V. unfold style_prop. rewrite T. destruct (set_char_shading (st_color st)) as [h|d] eqn:E.
  - exists (P_highlight h). split; [cbn [mark_of]; rewrite (highlight_value _ _ E); reflexivity|]. split; [apply in_set; left; reflexivity|]. split; [intros q Hq; apply in_set in Hq; tauto|].
    intros H. apply sel_set_none; [reflexivity|exact H].
  - destruct (fill_value _ V _ E) as (ds & -> & D). exists (P_shd ds). split; [cbn [mark_of]; rewrite D; reflexivity|]. split; [left; reflexivity|]. split; [intros q [<-|Hq]; auto|].
    intros H. rewrite sel_cons, H. reflexivity.
Qed.
Lemma style_line c st l : st_type st = R_UNDERLINE -> color_value (st_color st) ->
  exists p, line_of c p = [st_color st] /\ In p (style_prop c st l) /\ (forall q, In q (style_prop c st l) -> q = p \/ In q l) /\
            (filter (fun q => KU (rank q)) l = [] -> filter (fun q => KU (rank q)) (style_prop c st l) = [p]).
Proof.
  intros T V. unfold style_prop. rewrite T. destruct (Z.eqb_spec c (st_color st)) as [->|N].
  - exists (P_u None). split; [reflexivity|]. split; [apply in_set; left; reflexivity|]. split; [intros q Hq; apply in_set in Hq; tauto|]. intros H. apply sel_set_none; [reflexivity|exact H].
  - destruct (attribute_value _ V) as (ds & -> & D). exists (P_u (Some ds)). split; [cbn [line_of]; rewrite D; reflexivity|]. split; [left; reflexivity|]. split; [intros q [<-|Hq]; auto|].
    intros H. rewrite sel_cons, H. reflexivity.
Qed.
(** The general shape of both: kinds of styles and the properties they give. *)
Lemma folded_kind c (K : Z -> bool) (f : prop -> list Z) k (Hk : k = R_HIGHLIGHT \/ k = R_UNDERLINE) :
  (forall q, K (rank q) = false -> f q = []) ->
  (forall st l, st_type st <> k -> filter (fun q => K (rank q)) (style_prop c st l) = filter (fun q => K (rank q)) l) ->
  (forall st l, st_type st = k -> color_value (st_color st) -> exists p, f p = [st_color st] /\ In p (style_prop c st l) /\ (forall q, In q (style_prop c st l) -> q = p \/ In q l) /\
     (filter (fun q => K (rank q)) l = [] -> filter (fun q => K (rank q)) (style_prop c st l) = [p])) ->
  forall sts l, (forall st, In st sts -> st_type st = k -> color_value (st_color st)) ->
  (forall x, In x (flat_map f (folded c sts l)) -> In x (flat_map f l) \/ In x (map st_color (filter (fun s => rtype_eqb (st_type s) k) sts))) /\
  ((filter (fun q => K (rank q)) l <> [] -> flat_map f (filter (fun q => K (rank q)) l) <> []) -> (filter (fun q => K (rank q)) l <> [] \/ filter (fun s => rtype_eqb (st_type s) k) sts <> []) -> flat_map f (folded c sts l) <> []) /\
  (filter (fun q => K (rank q)) l = [] -> (List.length (filter (fun s => rtype_eqb (st_type s) k) sts) <= 1)%nat -> flat_map f (folded c sts l) = map st_color (filter (fun s => rtype_eqb (st_type s) k) sts)).
Proof.
  intros G Other Same. induction sts as [|st sts IH]; intros l V; cbn [fold_left filter].
  - split; [intros x Hx; left; exact Hx|]. split; [intros HN [H|H]; [|contradiction]; rewrite (getter K f l G); apply HN, H|]. intros H _. cbn [map]. rewrite (getter K f l G), H. reflexivity.
  - destruct (IH (style_prop c st l)) as (A & B & C); [intros x Hx; apply V; right; exact Hx|]. destruct (rtype_eqb (st_type st) k) eqn:E.
    + apply rtype_eqb_iff in E. destruct (Same st l E (V st (or_introl eq_refl) E)) as (p & P1 & P2 & P3 & P4). cbn [map]. split; [|split].
      * intros x Hx. apply A in Hx. destruct Hx as [Hx|Hx]; [|right; right; exact Hx]. apply in_flat_map in Hx. destruct Hx as (q & Hq & Hx). apply P3 in Hq. destruct Hq as [->|Hq]; [rewrite P1 in Hx; destruct Hx as [<-|[]]; right; left; reflexivity|].
        left. apply in_flat_map. exists q. auto.
      * intros _ _. apply B.
        -- intros _ H. assert (In (st_color st) (flat_map f (filter (fun q => K (rank q)) (style_prop c st l)))) as Hin.
           { rewrite <- (getter K f _ G). apply in_flat_map. exists p. split; [exact P2|]. rewrite P1. left. reflexivity. }
           rewrite H in Hin. destruct Hin.
        -- left. intros H. assert (Hin : In p (filter (fun q => K (rank q)) (style_prop c st l))).
           { apply filter_In. split; [exact P2|]. destruct (K (rank p)) eqn:EK; [reflexivity|]. rewrite (G p EK) in P1. discriminate. }
           rewrite H in Hin. destruct Hin.
      * intros Hl Hlen. cbn [List.length] in Hlen. assert (En : filter (fun s => rtype_eqb (st_type s) k) sts = []) by (destruct (filter (fun s => rtype_eqb (st_type s) k) sts); [reflexivity|cbn in Hlen; lia]).
        rewrite En. cbn [map]. rewrite (getter K f _ G).
        assert (F : filter (fun q => K (rank q)) (folded c sts (style_prop c st l)) = filter (fun q => K (rank q)) (style_prop c st l)).
        { clear - En Other. generalize (style_prop c st l). induction sts as [|s sts IH]; intros l0; [reflexivity|]. cbn [fold_left]. cbn [filter] in En. destruct (rtype_eqb (st_type s) k) eqn:E; [discriminate|].
          rewrite IH by exact En. apply Other. intros Hs. rewrite Hs in E. destruct k; discriminate E. }
        rewrite F, (P4 Hl). cbn [flat_map]. rewrite P1. reflexivity.
    + assert (N : st_type st <> k) by (intros H; rewrite H in E; destruct k; discriminate E). pose proof (Other st l N) as O. split; [|split].
      * intros x Hx. apply A in Hx. destruct Hx as [Hx|Hx]; [|right; exact Hx]. left. rewrite (getter K f _ G), O, <- (getter K f _ G) in Hx. exact Hx.
      * rewrite O in B. exact B.
      * rewrite O in C. exact C.
Qed.
