From Verif Require Import StoreSpec StoreProof ImageProof.
From Coq Require Import Lqa Lia.
Open Scope Q_scope.
Open Scope list_scope.

Lemma map_same {A} (f : A -> A) l : (forall x, In x l -> f x = x) -> map f l = l.
Proof. induction l as [|a l IH]; intros H; [reflexivity|]. cbn [map]. rewrite (H a) by (left; reflexivity). rewrite IH by (intros x Hx; apply H; right; exact Hx). reflexivity. Qed.
Lemma kept_all {A} (box : A -> rect) l : (forall x, In x l -> there (box x)) -> kept box l = l.
Proof.
  unfold kept, there. induction l as [|a l IH]; intros H; [reflexivity|]. cbn [filter].
  rewrite (H a) by (left; reflexivity). rewrite IH by (intros x Hx; apply H; right; exact Hx). reflexivity.
Qed.
Lemma char_same c : settled_char c -> c_char c = c.
Proof. destruct c as [b t o]. unfold settled_char, rounded, c_char. cbn. intros ->. reflexivity. Qed.
Lemma span_same s : settled_span s -> c_span s = s.
Proof.
  destruct s as [t|i]; cbn [settled_span c_span].
  - destruct t as [b c f z g cs st]. unfold c_tspan, rounded. cbn [s_box s_color s_font s_size s_flags s_chars s_style].
    intros (-> & _ & -> & _ & H). rewrite (map_same c_char) by (intros x Hx; apply char_same; exact (all_In _ _ x H Hx)). reflexivity.
  - destruct i as [b e w h bs]. unfold c_image, rounded. cbn. intros (-> & _). reflexivity.
Qed.
Lemma span_there s : settled_span s -> there (span_box s).
Proof. destruct s; cbn; tauto. Qed.
Lemma line_same l : settled_line l -> c_line l = l.
Proof.
  intros (H1 & H2 & H3 & H4 & H5). unfold c_line.
  rewrite (map_same c_span) by (intros x Hx; apply span_same; exact (all_In _ _ x H5 Hx)).
  rewrite kept_all by (intros x Hx; apply span_there; exact (all_In _ _ x H5 Hx)).
  rewrite H3, H4, <- H1. destruct l as [b w [d d'] br ss]. reflexivity.
Qed.
Lemma shape_same s : settled_shape s -> c_shape s = s /\ there (shape_box s).
Proof.
  destruct s as [b t c|b t c u|b t c p q w]; cbn [settled_shape c_shape shape_box]; intros (H & R); (split; [|exact H]); unfold rounded in *.
  - rewrite R. reflexivity.
  - rewrite R. reflexivity.
  - destruct R as (R1 & R2 & R3).
    assert (E : (qlt (fst q) (fst p) || qlt (snd q) (snd p))%bool = false).
    { apply Bool.orb_false_iff. split; apply Bool.not_true_iff_false; rewrite qlt_iff; lra. }
    rewrite E. rewrite <- R3. reflexivity.
Qed.
Lemma line_there l : settled_line l -> there (l_box l). Proof. intros H. apply H. Qed.
Lemma block_there x : settled x -> there (block_box x). Proof. destruct x; cbn; tauto. Qed.
Lemma row_there r : settled_row r -> there (row_box r). Proof. destruct r; cbn; tauto. Qed.
Lemma block_same x : settled x -> c_block x = x.
Proof.
  revert x. apply (block_nested (fun x => settled x -> c_block x = x) (fun r => settled_row r -> c_row r = r) (fun c => settled_cell c -> c_cell c = c)).
  - intros t b a ls (-> & H1 & H2 & H3). cbn [c_block]. unfold c_text.
    rewrite (map_same c_line) by (intros x Hx; apply line_same; exact (all_In _ _ x H3 Hx)).
    rewrite kept_all by (intros x Hx; apply line_there; exact (all_In _ _ x H3 Hx)). rewrite <- H1. reflexivity.
  - intros t a i (-> & H1 & H2). cbn [c_block]. destruct i as [b e w h bs]. unfold c_image, rounded in *. cbn in *. rewrite H1. reflexivity.
  - intros t b a rows IH (-> & H1 & H2 & H3 & H4). cbn [c_block]. rewrite Forall_forall in IH.
    rewrite (map_same c_row) by (intros x Hx; apply IH; [exact Hx|exact (all_In _ _ x H4 Hx)]).
    rewrite kept_all by (intros x Hx; apply row_there; exact (all_In _ _ x H4 Hx)). rewrite H1, H3. reflexivity.
  - intros b h cells IH (H1 & H2 & H3 & H4). cbn [c_row]. rewrite Forall_forall in IH.
    rewrite (map_same c_cell) by (intros x Hx; apply IH; [exact Hx|exact (all_In _ _ x H4 Hx)]). rewrite H1, H3. reflexivity.
  - intros b bg bc bw mg bs fs sh IHb IHf. cbn [settled_cell c_cell]. intros [E|(H1 & H2 & -> & -> & H3)].
    + inversion E. subst. reflexivity.
    + rewrite H2. cbn [map]. rewrite app_nil_r. rewrite Forall_forall in IHb.
      rewrite (map_same c_block) by (intros x Hx; apply IHb; [exact Hx|exact (all_In _ _ x H3 Hx)]).
      rewrite kept_all by (intros x Hx; apply block_there; exact (all_In _ _ x H3 Hx)). rewrite H1. reflexivity.
Qed.
Lemma line_storable l : settled_line l -> named_line l.
Proof.
  intros (_ & _ & _ & _ & H). unfold named_line. apply Forall_forall. intros s Hs. pose proof (all_In _ _ s H Hs) as G.
  destruct s as [t|i]; cbn [named_span settled_span] in *; [|exact I]. destruct G as (_ & _ & E & G & _). rewrite E. exact G.
Qed.
Lemma all_imp {A} (P R : A -> Prop) l : (forall x, In x l -> P x -> R x) -> all P l -> all R l.
Proof. rewrite !all_Forall, !Forall_forall. intros H G x Hx. apply H; auto. Qed.
Lemma block_storable x : settled x -> storable x.
Proof.
  revert x. apply (block_nested (fun x => settled x -> storable x) (fun r => settled_row r -> storable_row r) (fun c => settled_cell c -> storable_cell c)).
  - intros t b a ls (-> & _ & _ & H). cbn [storable]. split; [reflexivity|]. revert H. apply all_imp. intros l _. apply line_storable.
  - intros t a i (-> & _). reflexivity.
  - intros t b a rows IH (-> & _ & _ & _ & H). cbn [storable]. split; [left; reflexivity|]. rewrite Forall_forall in IH. revert H. apply all_imp, IH.
  - intros b h cells IH (_ & _ & _ & H). cbn [storable_row]. rewrite Forall_forall in IH. revert H. apply all_imp, IH.
  - intros b bg bc bw mg bs fs sh IHb IHf. cbn [settled_cell storable_cell]. intros [E|(_ & _ & -> & _ & H)].
    + inversion E. subst. split; exact I.
    + split; [|exact I]. rewrite Forall_forall in IHb. revert H. apply all_imp, IHb.
Qed.
Lemma page_same p old : settled_page p ->
  page_storable p /\ c_page p old = mkPage (p_id p) (p_width p) (p_height p) (p_margin p) (p_blocks p ++ p_floats p) (p_floats old) (p_shapes p).
Proof.
  intros (H1 & H2 & H3). split.
  - split; [revert H1|revert H2]; apply all_imp; intros x _; apply block_storable.
  - unfold c_page.
    rewrite !(map_same c_block) by (intros x Hx; apply block_same; first [exact (all_In _ _ x H1 Hx)|exact (all_In _ _ x H2 Hx)]).
    rewrite (map_same c_shape) by (intros x Hx; apply shape_same; exact (all_In _ _ x H3 Hx)).
    rewrite kept_all.
    + rewrite kept_all by (intros x Hx; apply shape_same; exact (all_In _ _ x H3 Hx)). reflexivity.
    + intros x Hx. apply in_app_or in Hx. apply block_there. destruct Hx as [Hx|Hx]; [exact (all_In _ _ x H1 Hx)|exact (all_In _ _ x H2 Hx)].
Qed.

(* ---------------- json-ability ---------------- *)
Lemma forallb_map {A B} (g : A -> B) f l : forallb f (map g l) = forallb (fun x => f (g x)) l.
Proof. induction l as [|a l IH]; [reflexivity|]. cbn. rewrite IH. reflexivity. Qed.
Lemma forallb_all {A} (P : A -> Prop) f l : (forall x, In x l -> P x -> f x = true) -> all P l -> forallb f l = true.
Proof. intros H G. apply forallb_forall. intros x Hx. apply H; [exact Hx|exact (all_In _ _ x G Hx)]. Qed.
Lemma plain_rect r : plain (py_rect r) = true. Proof. reflexivity. Qed.
Lemma plain_store_char c : plain_char c -> plain (store_char c) = true.
Proof. unfold plain_char, store_char. intros H. cbn [plain forallb snd]. rewrite plain_rect, H. reflexivity. Qed.
Lemma plain_store_span s : plain_span s -> plain (store_span s) = true.
Proof.
  destruct s as [t|i]; cbn [plain_span store_span].
  - intros (H1 & H2 & H3 & H4). unfold store_tspan. cbn [plain forallb snd]. rewrite plain_rect, H1, H2, H3, forallb_map.
    rewrite (forallb_all plain_char) by (exact H4 || (intros x _; apply plain_store_char)). reflexivity.
  - intros (H1 & H2 & H3). unfold store_image, image_fields. cbn [plain forallb snd]. rewrite plain_rect, H1, H2, H3. reflexivity.
Qed.
Lemma plain_store_line l : plain_line l -> plain (store_line l) = true.
Proof.
  intros (H1 & H2 & H3). unfold store_line. cbn [plain forallb snd]. rewrite plain_rect, H1, H2, forallb_map.
  rewrite (forallb_all plain_span) by (exact H3 || (intros x _; apply plain_store_span)). reflexivity.
Qed.
Lemma plain_fields b t a : plain_attrs a -> forallb (fun kv => plain (snd kv)) (attrs_fields b t a) = true.
Proof.
  unfold plain_attrs. cbn [all]. intros (H1 & H2 & H3 & H4 & H5 & H6 & H7 & H8 & H9 & _). unfold attrs_fields. cbn [forallb snd plain].
  rewrite plain_rect, H1, H2, H3, H4, H5, H6, H7, H8, H9. reflexivity.
Qed.
Lemma plain_store_block x : plain_block x -> plain (store_block x) = true.
Proof.
  revert x. apply (block_nested (fun x => plain_block x -> plain (store_block x) = true) (fun r => plain_row r -> plain (store_row r) = true) (fun c => plain_cell c -> plain (store_cell c) = true)).
  - intros t b a ls (H1 & H2). cbn [store_block plain]. rewrite forallb_app, plain_fields by exact H1. cbn [forallb snd plain andb]. rewrite forallb_map.
    rewrite (forallb_all plain_line) by (exact H2 || (intros x _; apply plain_store_line)). reflexivity.
  - intros t a i (H1 & H2 & H3 & H4). cbn [store_block plain]. rewrite forallb_app, plain_fields by exact H1. unfold image_fields. cbn [forallb snd plain andb].
    rewrite H2, H3, H4. reflexivity.
  - intros t b a rows IH (H1 & H2). cbn [store_block plain]. rewrite forallb_app, plain_fields by exact H1. cbn [forallb snd plain andb]. rewrite forallb_map.
    rewrite Forall_forall in IH. rewrite (forallb_all plain_row) by (exact H2 || exact IH). reflexivity.
  - intros b h cells IH (H1 & H2). cbn [store_row plain forallb snd]. rewrite plain_rect, H1, forallb_map.
    rewrite Forall_forall in IH. rewrite (forallb_all plain_cell) by (exact H2 || exact IH). reflexivity.
  - intros b bg bc bw mg bs fs sh IHb IHf (H1 & H2 & H3). cbn [store_cell]. destruct (rect_bool b); [|reflexivity].
    cbn [plain forallb snd]. cbn [all] in H1. destruct H1 as (A1 & A2 & A3 & A4 & _). rewrite plain_rect, A1, A2, A3, A4. cbn [andb].
    rewrite forallb_app, !forallb_map. rewrite Forall_forall in IHb, IHf.
    rewrite (forallb_all plain_block) by (exact H2 || exact IHb). rewrite (forallb_all plain_block) by (exact H3 || exact IHf). reflexivity.
Qed.
Lemma plain_store_shape s : plain_shape s -> plain (store_shape s) = true.
Proof.
  destruct s as [b t c|b t c u|b t c p q w]; cbn [plain_shape store_shape plain forallb snd]; rewrite plain_rect; [intros ->; reflexivity|intros [-> ->]; reflexivity|].
  intros ->. reflexivity.
Qed.
Theorem plain_store_page p : plain_page p -> plain (store_page p) = true.
Proof.
  intros (H & H2 & H3 & H4). cbn [all] in H. destruct H as (A1 & A2 & A3 & A4 & _). unfold store_page. cbn [plain forallb snd].
  rewrite A1, A2, A3, A4. cbn [andb]. rewrite forallb_app, !forallb_map.
  rewrite (forallb_all plain_block) by (exact H2 || (intros x _; apply plain_store_block)).
  rewrite (forallb_all plain_block) by (exact H3 || (intros x _; apply plain_store_block)).
  rewrite (forallb_all plain_shape) by (exact H4 || (intros x _; apply plain_store_shape)). reflexivity.
Qed.
