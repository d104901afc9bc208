(** C72: the run written for a piece of text. *)
From Verif Require Import RunSpec RunProof ColorProof ColorProps ParaProps ExtractProps.
From Coq Require Import String Lia Lqa Qabs.
Open Scope Z_scope.
Open Scope list_scope.

(** The text of the run is the text of the span (carriage returns read as line breaks). *)
Theorem C72_text names uris t r : write_span names uris t = Some r -> run_text r = breaks_read (ts_text t).
Proof.
  unfold write_span. cbv zeta. destruct (negb _); [discriminate|]. destruct (format_props _ _ _) as [l|]; [|discriminate]. cbn [option_map]. intros E. injection E as <-.
  unfold run_text. cbn [wr_content]. destruct (find _ _); [cbn [flat_map content_text]; rewrite app_nil_r|]; apply (content_spec _ []).
Qed.
Print Assumptions C72_text.
(** The run is a link exactly if the span lies under one and is not blank; then all of it, to the target of the first. *)
Theorem C72_link names uris t r : write_span names uris t = Some r ->
  (blank (ts_text t) -> run_links r = []) /\
  (~ blank (ts_text t) -> run_links r = match styles_of R_HYPERLINK t with st :: _ => [(uris (st_uri st), breaks_read (ts_text t))] | [] => [] end).
Proof.
  unfold write_span. cbv zeta. destruct (negb _); [discriminate|]. destruct (format_props _ _ _) as [l|]; [|discriminate]. cbn [option_map]. intros E. injection E as <-.
  unfold run_links. cbn [wr_content]. pose proof (strip_blank (ts_text t)) as SB.
  assert (P : flat_map (fun c => match c with C_link u _ inner => [(u, flat_map content_text inner)] | _ => [] end) (text_content [] (ts_text t)) = []).
  { pose proof (content_plain (ts_text t) []) as H. induction (text_content [] (ts_text t)) as [|c l0 IH]; [reflexivity|]. cbn [flat_map]. rewrite IH by (intros x Hx; apply H; right; exact Hx).
    specialize (H c (or_introl eq_refl)). destruct c; try reflexivity. destruct H. }
  split; intros B.
  - rewrite (proj2 SB B). assert (F : forall l0 : list style, find (fun st => rtype_eqb (st_type st) R_HYPERLINK && negb true) l0 = None) by (intros l0; induction l0 as [|s l0 IH]; [reflexivity|]; cbn [find]; rewrite andb_false_r; exact IH).
    rewrite F. exact P.
  - destruct (strip (ts_text t)) as [|c s]; [exfalso; apply B, SB; reflexivity|].
    assert (F : forall l0 : list style, find (fun st => rtype_eqb (st_type st) R_HYPERLINK && negb false) l0 = match filter (fun s => rtype_eqb (st_type s) R_HYPERLINK) l0 with x :: _ => Some x | [] => None end).
    { intros l0. induction l0 as [|x l0 IH]; [reflexivity|]. cbn [find filter]. rewrite andb_true_r in *. destruct (rtype_eqb (st_type x) R_HYPERLINK); [reflexivity|exact IH]. }
    rewrite F. unfold styles_of. destruct (filter _ _) as [|x xs]; [exact P|]. cbn [flat_map app]. rewrite (content_spec _ []). reflexivity.
Qed.
Print Assumptions C72_link.

(** The basic properties: before the styles. *)
Lemma format_spec name a sts l : format_props name a sts = Some l ->
  exists f rgb, run_font (at_flags a) (at_size a) = Some f /\ rgb_component (at_color a) = Some rgb /\ forallb xml_char name = true /\ forallb (fun c => (0 <=? c) && (c <=? 255)) rgb = true /\
  l = fold_left (fun l st => style_prop (at_color a) st l) sts ((match rf_scale f with Some s => [P_w (100 * s)%Q] | None => [] end) ++ [P_fonts name name; P_bold (rf_bold f); P_italic (rf_italic f); P_color rgb; P_size (qtrunc (rf_size f * 2))]).
Proof.
  unfold format_props. destruct (run_font _ _) as [f|]; [|discriminate]. destruct (rgb_component _) as [rgb|]; [|discriminate].
  destruct (forallb xml_char name) eqn:En; [|discriminate]. cbn [negb orb]. destruct (forallb _ rgb) eqn:Er; [|discriminate]. cbn [negb]. cbv zeta. intros E. injection E as <-.
  exists f, rgb. split; [reflexivity|]. split; [reflexivity|]. split; [reflexivity|]. split; [exact Er|]. f_equal. destruct (rf_scale f); reflexivity.
Qed.
(** One font name (also for Asian text), colour, size, bold and italic: those of the span. *)
Theorem C72_format names uris t r : color_value (at_color (ts_attrs t)) -> write_span names uris t = Some r ->
  exists rd gr bl f, run_font (at_flags (ts_attrs t)) (at_size (ts_attrs t)) = Some f /\
    fonts r = [(names (at_font (ts_attrs t)), names (at_font (ts_attrs t)))] /\ bolds r = [Z.testbit (at_flags (ts_attrs t)) 4] /\ italics r = [Z.testbit (at_flags (ts_attrs t)) 1] /\
    colors r = [[rd; gr; bl]] /\ 65536 * rd + 256 * gr + bl = at_color (ts_attrs t) /\
    sizes r = [round_half_even (at_size (ts_attrs t) * 2)] /\ scales r = match rf_scale f with Some s => [(100 * s)%Q] | None => [] end.
Proof.
  intros V E. unfold write_span in E. cbv zeta in E. destruct (negb _); [discriminate|]. destruct (format_props _ _ _) as [l|] eqn:F; [|discriminate]. cbn [option_map] in E. injection E as <-.
  destruct (format_spec _ _ _ _ F) as (f & rgb & Ef & Er & _ & _ & ->). destruct (rgb_component_spec _ V) as (rd & gr & bl & Er2 & R1 & R2 & R3 & R4). rewrite Er in Er2. injection Er2 as ->.
  exists rd, gr, bl, f. split; [exact Ef|]. set (a := ts_attrs t) in *. set (base := (match rf_scale f with Some s => [P_w (100 * s)%Q] | None => [] end) ++ _).
  assert (S : forall K : Z -> bool, K 8 = false -> K 25 = false -> K 29 = false -> K 26 = false -> filter (fun q => K (rank q)) (fold_left (fun l st => style_prop (at_color a) st l) (ts_style t) base) = filter (fun q => K (rank q)) base).
  { intros K K1 K2 K3 K4. apply folded_sel. intros st _. auto. }
  assert (G : forall B (K : Z -> bool) (f : prop -> list B), K 8 = false -> K 25 = false -> K 29 = false -> K 26 = false -> (forall q, K (rank q) = false -> f q = []) ->
    flat_map f (fold_left (fun l st => style_prop (at_color a) st l) (ts_style t) base) = flat_map f base).
  { intros B K f0 K1 K2 K3 K4 H. rewrite (getter K f0 _ H), S, <- (getter K f0 _ H) by assumption. reflexivity. }
  unfold fonts, bolds, italics, colors, sizes, scales. cbn [wr_props].
  assert (Hb : rf_bold f = Z.testbit (at_flags a) 4 /\ rf_italic f = Z.testbit (at_flags a) 1 /\ qtrunc (rf_size f * 2) = round_half_even (at_size a * 2)).
  { unfold run_font in Ef. cbv zeta in Ef. destruct (qeq _ 0); [discriminate|]. injection Ef as <-. cbn [rf_bold rf_italic rf_size]. split; [reflexivity|]. split; [reflexivity|].
    assert (W : forall k, qtrunc (inject_Z k / 2 * 2) = k).
    { intros k. unfold qtrunc. assert (Q2 : (inject_Z k / 2 * 2 == inject_Z k)%Q) by field. destruct (qlt _ 0).
      - assert (Q3 : (- (inject_Z k / 2 * 2) == inject_Z (- k))%Q) by (rewrite Q2, inject_Z_opp; reflexivity). rewrite Q3, Qfloor_Z. lia.
      - rewrite Q2. apply Qfloor_Z. }
    apply W. }
  destruct Hb as (Hb & Hi & Hs).
  split; [rewrite (G _ (fun k => k =? 1)) by (reflexivity || (intros q; destruct q; cbn; try reflexivity; discriminate)); unfold base; destruct (rf_scale f); reflexivity|].
  split; [rewrite (G _ (fun k => k =? 2)) by (reflexivity || (intros q; destruct q; cbn; try reflexivity; discriminate)); rewrite <- Hb; unfold base; destruct (rf_scale f); reflexivity|].
  split; [rewrite (G _ (fun k => k =? 4)) by (reflexivity || (intros q; destruct q; cbn; try reflexivity; discriminate)); rewrite <- Hi; unfold base; destruct (rf_scale f); reflexivity|].
  split; [rewrite (G _ (fun k => k =? 18)) by (reflexivity || (intros q; destruct q; cbn; try reflexivity; discriminate)); unfold base; destruct (rf_scale f); reflexivity|].
  split; [lia|].
  split; [rewrite (G _ (fun k => k =? 23)) by (reflexivity || (intros q; destruct q; cbn; try reflexivity; discriminate)); rewrite <- Hs; unfold base; destruct (rf_scale f); reflexivity|].
  rewrite (G _ (fun k => k =? 20)) by (reflexivity || (intros q; destruct q; cbn; try reflexivity; discriminate)); unfold base; destruct (rf_scale f); reflexivity.
Qed.
Print Assumptions C72_format.

(** Struck through, marked and underlined exactly if the span has such a style, in its colour if there is one of the kind. *)
Theorem C72_styles names uris t r : (forall st, In st (ts_style t) -> color_value (st_color st)) -> write_span names uris t = Some r ->
  (struck r <-> styles_of R_STRIKE t <> []) /\
  (marks r = [] <-> styles_of R_HIGHLIGHT t = []) /\ incl (marks r) (map st_color (styles_of R_HIGHLIGHT t)) /\
  ((List.length (styles_of R_HIGHLIGHT t) <= 1)%nat -> marks r = map st_color (styles_of R_HIGHLIGHT t)) /\
  (underlines (at_color (ts_attrs t)) r = [] <-> styles_of R_UNDERLINE t = []) /\ incl (underlines (at_color (ts_attrs t)) r) (map st_color (styles_of R_UNDERLINE t)) /\
  ((List.length (styles_of R_UNDERLINE t) <= 1)%nat -> underlines (at_color (ts_attrs t)) r = map st_color (styles_of R_UNDERLINE t)).
Proof.
  intros V E. unfold write_span in E. cbv zeta in E. destruct (negb _); [discriminate|]. destruct (format_props _ _ _) as [l|] eqn:F; [|discriminate]. cbn [option_map] in E. injection E as <-.
  destruct (format_spec _ _ _ _ F) as (f & rgb & Ef & Er & _ & _ & ->). set (a := ts_attrs t) in *. set (base := (match rf_scale f with Some s => [P_w (100 * s)%Q] | None => [] end) ++ _).
  unfold struck, marks, underlines. cbn [wr_props].
  assert (NS : ~ In (P_strike true) base) by (unfold base; destruct (rf_scale f); cbn; intros H; repeat (destruct H as [H|H]; [discriminate|]); exact H).
  assert (BM : filter (fun q => KM (rank q)) base = []) by (unfold base; destruct (rf_scale f); reflexivity).
  assert (BU : filter (fun q => KU (rank q)) base = []) by (unfold base; destruct (rf_scale f); reflexivity).
  split.
  { rewrite folded_strike. unfold styles_of. split.
    - intros [H|(st & Hst & T)]; [contradiction|]. intros H. assert (Hin : In st (filter (fun s => rtype_eqb (st_type s) R_STRIKE) (ts_style t))) by (apply filter_In; split; [exact Hst|rewrite T; reflexivity]). rewrite H in Hin. destruct Hin.
    - intros H. right. destruct (filter (fun s => rtype_eqb (st_type s) R_STRIKE) (ts_style t)) as [|st rest] eqn:Es; [contradiction|]. assert (Hin : In st (filter (fun s => rtype_eqb (st_type s) R_STRIKE) (ts_style t))) by (rewrite Es; left; reflexivity).
      apply filter_In in Hin. destruct Hin as (Hin & T). exists st. split; [exact Hin|]. apply rtype_eqb_iff, T. }
  assert (GM : forall q, KM (rank q) = false -> mark_of q = []) by (intros q; destruct q; cbn; try reflexivity; discriminate).
  assert (GU : forall q, KU (rank q) = false -> line_of (at_color a) q = []) by (intros q; destruct q; cbn; try reflexivity; discriminate).
  destruct (folded_kind (at_color a) KM mark_of R_HIGHLIGHT (or_introl eq_refl) GM) with (sts := ts_style t) (l := base) as (A1 & A2 & A3).
  { intros st l N. apply style_sel; [left; reflexivity|right; exact N|left; reflexivity]. }
  { intros st l T Vc. apply style_mark; assumption. }
  { intros st Hst _. apply V, Hst. }
  destruct (folded_kind (at_color a) KU (line_of (at_color a)) R_UNDERLINE (or_intror eq_refl) GU) with (sts := ts_style t) (l := base) as (B1 & B2 & B3).
  { intros st l N. apply style_sel; [left; reflexivity|left; split; reflexivity|right; exact N]. }
  { intros st l T Vc. apply style_line; assumption. }
  { intros st Hst _. apply V, Hst. }
  rewrite BM in A2. rewrite BU in B2.
  assert (MB : flat_map mark_of base = []) by (rewrite (getter KM mark_of base GM), BM; reflexivity).
  assert (UB : flat_map (line_of (at_color a)) base = []) by (rewrite (getter KU (line_of (at_color a)) base GU), BU; reflexivity).
  rewrite MB in A1. rewrite UB in B1. unfold styles_of. fold mark_of. fold (line_of (at_color a)).
  split; [|split; [|split; [|split; [|split]]]].
  - split; intros H.
    + destruct (filter (fun s => rtype_eqb (st_type s) R_HIGHLIGHT) (ts_style t)) as [|x xs]; [reflexivity|]. exfalso. revert H. apply A2; [intros N; contradiction|right; discriminate].
    + rewrite H in A1. cbn [map] in A1. destruct (flat_map mark_of _) as [|x xs]; [reflexivity|]. destruct (A1 x (or_introl eq_refl)) as [[]|[]].
  - intros x Hx. destruct (A1 x Hx) as [[]|H]. exact H.
  - intros H. apply A3; assumption.
  - split; intros H.
    + destruct (filter (fun s => rtype_eqb (st_type s) R_UNDERLINE) (ts_style t)) as [|x xs]; [reflexivity|]. exfalso. revert H. apply B2; [intros N; contradiction|right; discriminate].
    + rewrite H in B1. cbn [map] in B1. match goal with |- ?g = [] => destruct g as [|x xs] eqn:EE end; [reflexivity|]. destruct (B1 x) as [[]|[]]. change (In x (x :: xs)). left. reflexivity.
  - intros x Hx. destruct (B1 x Hx) as [[]|H]. exact H.
  - intros H. apply B3; assumption.
Qed.
Print Assumptions C72_styles.

(** Writing fails exactly for a character XML does not allow (in the text or the font name) or a font size of at most a quarter point. *)
Theorem C72_fails names uris t : color_value (at_color (ts_attrs t)) -> (0 <= at_size (ts_attrs t))%Q ->
  (write_span names uris t = None <-> (exists c, In c (ts_text t ++ names (at_font (ts_attrs t))) /\ xml_char c = false) \/ (at_size (ts_attrs t) <= 1 # 4)%Q).
Proof.
  intros V S. unfold write_span. cbv zeta. set (a := ts_attrs t) in *. set (n := names (at_font a)).
  assert (FB : forall l, forallb xml_char l = true <-> ~ exists c, In c l /\ xml_char c = false).
  { intros l. rewrite forallb_forall. split; [intros H (c & Hc & E); rewrite (H c Hc) in E; discriminate|]. intros H c Hc. destruct (xml_char c) eqn:E; [reflexivity|]. exfalso. apply H. exists c. auto. }
  assert (R : run_font (at_flags a) (at_size a) = None <-> (at_size a <= 1 # 4)%Q).
  { split; intros H.
    - apply Qnot_lt_le. intros L. destruct (C53_defined (at_flags a) _ L) as (r & Er). rewrite Er in H. discriminate.
    - unfold run_font. cbv zeta. pose proof (round_half_even_bound (at_size a * 2)) as B. assert (Z0 : round_half_even (at_size a * 2) = 0).
      { destruct (Qeq_dec (at_size a) (1 # 4)) as [Eq|N].
        - rewrite (round_half_even_comp (at_size a * 2) (1 # 2)) by (rewrite Eq; reflexivity). reflexivity.
        - assert (LT : (at_size a < 1 # 4)%Q) by (destruct (Qlt_le_dec (at_size a) (1 # 4)) as [L|L]; [exact L|exfalso; apply N; lra]).
          destruct B as (B1 & B2). assert (L1 : (inject_Z (round_half_even (at_size a * 2)) < inject_Z 1)%Q) by (change (inject_Z 1) with 1%Q; lra).
          assert (L2 : (inject_Z (-1) < inject_Z (round_half_even (at_size a * 2)))%Q) by (change (inject_Z (-1)) with (-1)%Q; lra). rewrite <- Zlt_Qlt in L1, L2. lia. }
      rewrite Z0. reflexivity. }
  destruct (rgb_component_spec _ V) as (rd & gr & bl & Er & R1 & R2 & R3 & R4). unfold format_props. rewrite Er.
  assert (RB : forallb (fun c => (0 <=? c) && (c <=? 255)) [rd; gr; bl] = true).
  { cbn [forallb]. repeat (apply andb_true_intro; split); try reflexivity; apply Z.leb_le; lia. }
  rewrite RB. cbn [negb]. rewrite orb_false_r.
  destruct (forallb xml_char (ts_text t)) eqn:E1; cbn [negb].
  - destruct (run_font (at_flags a) (at_size a)) as [f|] eqn:Ef; cbn [option_map].
    + destruct (forallb xml_char n) eqn:E2; cbn [negb option_map].
      * split; [discriminate|]. intros [(c & Hc & Ec)|H]; [|discriminate (proj2 R H)]. apply in_app_or in Hc. destruct Hc as [Hc|Hc]; [apply FB in E1; exfalso; apply E1|apply FB in E2; exfalso; apply E2]; exists c; auto.
      * split; [|reflexivity]. intros _. left. assert (H : exists c, In c n /\ xml_char c = false).
        { clear - E2. induction n as [|c l IH]; [discriminate|]. cbn [forallb] in E2. destruct (xml_char c) eqn:E; [destruct (IH E2) as (x & Hx & Ex); exists x; split; [right; exact Hx|exact Ex]|exists c; split; [left; reflexivity|exact E]]. }
        destruct H as (c & Hc & Ec). exists c. split; [apply in_or_app; right; exact Hc|exact Ec].
    + split; [|reflexivity]. intros _. right. apply R. reflexivity.
  - split; [|reflexivity]. intros _. left. assert (H : exists c, In c (ts_text t) /\ xml_char c = false).
    { clear - E1. induction (ts_text t) as [|c l IH]; [discriminate|]. cbn [forallb] in E1. destruct (xml_char c) eqn:E; [destruct (IH E1) as (x & Hx & Ex); exists x; split; [right; exact Hx|exact Ex]|exists c; split; [left; reflexivity|exact E]]. }
    destruct H as (c & Hc & Ec). exists c. split; [apply in_or_app; left; exact Hc|exact Ec].
Qed.
Print Assumptions C72_fails.

(* ------------------------------------------------------------------ *)
(** * Concrete spans *)
Definition rn_span (s : string) (styles : list style) (size : Q) : tspan := mkTspan (map (fun c => mkChar c rect0) (codes s)) rect0 styles (mkAttrs 1 size 18 255).
Definition rn_names (n : nat) : list Z := codes "Arial".
Definition rn_uris (n : nat) : list Z := codes "http://a.b".
Definition rn_link : style := mkStyle R_HYPERLINK 0 7.
Example C72_nonvacuous : write_span rn_names rn_uris (rn_span "ab" [rn_link; mkStyle R_HIGHLIGHT 16776960 0; mkStyle R_UNDERLINE 255 0; mkStyle R_STRIKE 255 0] 11) =
  Some (mkWrun [P_fonts (codes "Arial") (codes "Arial"); P_bold true; P_italic true; P_strike true; P_color [0; 0; 255]; P_size 22; P_highlight YELLOW; P_u None] [C_link (codes "http://a.b") [P_style] [C_text (codes "ab")]]) /\
  write_span rn_names rn_uris (rn_span " " [rn_link; mkStyle R_HIGHLIGHT 1 0; mkStyle R_UNDERLINE 16 0] (107 # 10)) =
  Some (mkWrun [P_u (Some [0; 0; 0; 0; 1; 0]); P_shd [0; 0; 0; 0; 0; 1]; P_w (100 * ((107 # 10) / (21 # 2))); P_fonts (codes "Arial") (codes "Arial"); P_bold true; P_italic true; P_color [0; 0; 255]; P_size 21] [C_text [32]]).
Proof. split; vm_compute; reflexivity. Qed.
(** Finding: one control character makes writing the page fail. *)
Theorem C72_control_refuted : exists t, (forall c, In c (ts_text t) -> 0 <= c < 128) /\ write_span rn_names rn_uris t = None.
Proof. exists (mkTspan [mkChar 65 rect0; mkChar 2 rect0] rect0 [] (mkAttrs 1 10 0 0)). split; [intros c H; cbn in H; destruct H as [<-|[<-|[]]]; lia|reflexivity]. Qed.
Print Assumptions C72_control_refuted.
(** Finding: two lines under a text give two underline elements, which Word's schema does not allow. *)
Theorem C72_twice_refuted : exists t r, write_span rn_names rn_uris t = Some r /\ underlines 255 r = [2; 1].
Proof. exists (rn_span "a" [mkStyle R_UNDERLINE 1 0; mkStyle R_UNDERLINE 2 0] 10). eexists. split; [vm_compute; reflexivity|]. vm_compute. reflexivity. Qed.
Print Assumptions C72_twice_refuted.
(** Finding: the run inside a link, which has the text, has none of the span's formatting: font, size, colour are on the run around the link. *)
Theorem C72_link_format_refuted names uris t r u props inner : write_span names uris t = Some r -> In (C_link u props inner) (wr_content r) -> props = [P_style].
Proof.
  unfold write_span. cbv zeta. destruct (negb _); [discriminate|]. destruct (format_props _ _ _) as [l|]; [|discriminate]. cbn [option_map]. intros E. injection E as <-. cbn [wr_content].
  destruct (find _ _); [intros [H|[]]; injection H as _ <- _; reflexivity|]. intros H. exfalso. apply (content_plain _ _ _ H).
Qed.
Print Assumptions C72_link_format_refuted.
