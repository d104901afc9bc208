From Verif Require Import StoreSpec ImageProof.
From Coq Require Import Lqa Lia Qround.
Open Scope Q_scope.
Open Scope list_scope.

(* ---------------- numbers ---------------- *)
Lemma round1_same x y : x == y -> round1 x = round1 y.
Proof. intros H. unfold round1, round_p. f_equal. f_equal. apply round_half_even_comp. rewrite H. reflexivity. Qed.
Lemma rround_same a b : req a b -> rround a = rround b.
Proof. intros (H1 & H2 & H3 & H4). unfold rround. f_equal; apply round1_same; assumption. Qed.
Lemma rmul_identity r : req (rmul r identity) r.
Proof.
  unfold rmul, identity. cbn [ma mb mc md me mf]. change (qeq 0 0 && qeq 0 0)%bool with true. cbv iota.
  change (qlt 1 0) with false. cbv iota. unfold mul_point. cbn [ma mb mc md me mf]. unfold req. cbn [rx0 ry0 rx1 ry1].
  repeat split; rewrite Qred_correct; lra.
Qed.
Lemma rround_identity r : rround (rmul r identity) = rround r.
Proof. apply rround_same, rmul_identity. Qed.
Lemma dir_identity p : mul_point (pure identity) p = (Qred (fst p), Qred (snd p)).
Proof.
  destruct p as [x y]. unfold mul_point, pure, identity. cbn [ma mb mc md me mf fst snd].
  f_equal; apply Qred_complete; lra.
Qed.

(* ---------------- option and lists ---------------- *)
Lemma mapo_map {A B C} (f : B -> option C) (g : A -> B) (h : A -> C) l :
  (forall x, In x l -> f (g x) = Some (h x)) -> mapo f (map g l) = Some (map h l).
Proof.
  induction l as [|a l IH]; intros H; [reflexivity|]. cbn [map mapo].
  rewrite (H a (or_introl eq_refl)). cbn [bind]. rewrite IH by (intros x Hx; apply H; right; exact Hx). reflexivity.
Qed.
Lemma all_Forall {A} (P : A -> Prop) l : all P l <-> Forall P l.
Proof. induction l as [|a l IH]; cbn; [split; constructor|]. rewrite IH. split; [intros [H1 H2]; constructor; assumption|intros H; inversion H; auto]. Qed.
Lemma all_In {A} (P : A -> Prop) l x : all P l -> In x l -> P x.
Proof. rewrite all_Forall, Forall_forall. auto. Qed.
Lemma flat_opt {A B} (f : A -> B) l : flat_map opt_list (map (fun x => Some (f x)) l) = map f l.
Proof. induction l as [|a l IH]; [reflexivity|]. cbn. rewrite IH. reflexivity. Qed.

(* ---------------- depth ---------------- *)
Lemma depth_list l x : In x l -> (depth x < depth (PList l))%nat.
Proof.
  intros H. cbn [depth]. apply Nat.lt_succ_r. induction l as [|a l IH]; [destruct H|].
  cbn [fold_right]. destruct H as [->|H]; [lia|]. specialize (IH H). lia.
Qed.
Lemma depth_dict d k v : In (k, v) d -> (depth v < depth (PDict d))%nat.
Proof.
  intros H. cbn [depth]. apply Nat.lt_succ_r. induction d as [|a l IH]; [destruct H|].
  cbn [fold_right]. destruct H as [->|H]; [cbn [snd]; lia|]. specialize (IH H). lia.
Qed.
Lemma depth_pos v : (0 < depth v)%nat. Proof. destruct v; cbn [depth]; lia. Qed.

(* ---------------- induction over nested blocks ---------------- *)
Section Ind.
Variables (P : block -> Prop) (Q0 : row -> Prop) (R : cell -> Prop).
Hypothesis Ht : forall t b a ls, P (TextB t b a ls).
Hypothesis Hi : forall t a i, P (ImgB t a i).
Hypothesis Htab : forall t b a rows, Forall Q0 rows -> P (TableB t b a rows).
Hypothesis Hrow : forall b h cells, Forall R cells -> Q0 (Row b h cells).
Hypothesis Hcell : forall b bg bc bw mg bs fs sh, Forall P bs -> Forall P fs -> R (Cell b bg bc bw mg bs fs sh).
Fixpoint block_nested (x : block) : P x :=
  match x with
  | TextB t b a ls => Ht t b a ls
  | ImgB t a i => Hi t a i
  | TableB t b a rows => Htab t b a rows ((fix go l : Forall Q0 l := match l with [] => Forall_nil _ | r :: l' => Forall_cons _ (row_nested r) (go l') end) rows)
  end
with row_nested (r : row) : Q0 r :=
  match r with Row b h cells => Hrow b h cells ((fix go l : Forall R l := match l with [] => Forall_nil _ | c :: l' => Forall_cons _ (cell_nested c) (go l') end) cells) end
with cell_nested (c : cell) : R c :=
  match c with
  | Cell b bg bc bw mg bs fs sh =>
      Hcell b bg bc bw mg bs fs sh
        ((fix go l : Forall P l := match l with [] => Forall_nil _ | x :: l' => Forall_cons _ (block_nested x) (go l') end) bs)
        ((fix go l : Forall P l := match l with [] => Forall_nil _ | x :: l' => Forall_cons _ (block_nested x) (go l') end) fs)
  end.
End Ind.

(* ---------------- leaves ---------------- *)
Lemma as_rect_py r : as_rect (py_rect r) = Some r. Proof. destruct r. reflexivity. Qed.
Lemma as_point_py p : as_point (py_point p) = Some p. Proof. destruct p. reflexivity. Qed.
Ltac look := cbn [get has assoc String.eqb Ascii.eqb Bool.eqb bind as_dict as_list as_str as_num option_map].
Lemma box_back d r : assoc "bbox" d = Some (py_rect r) -> element_box identity d = Some (rround r).
Proof. intros H. unfold element_box. rewrite H, as_rect_py. cbn [bind]. rewrite rround_identity. reflexivity. Qed.
Lemma char_back c : new_char identity (store_char c) = Some (c_char c).
Proof.
  unfold new_char, store_char. look. rewrite (box_back _ (c_box c)) by reflexivity. reflexivity.
Qed.
Section Fitz.
Variables (tl : string -> Q -> Q) (wr : pyval -> string -> Q -> rect).
Lemma tspan_back t : unnamed (parse_font (s_font t)) = false ->
  new_span tl wr identity (store_tspan t) = Some (TSpan (c_tspan t)).
Proof.
  intros H. unfold new_span, store_tspan. look. unfold new_tspan. look.
  rewrite (mapo_map _ store_char c_char) by (intros x _; apply char_back). look.
  rewrite (box_back _ (s_box t)) by reflexivity. look. rewrite H. reflexivity.
Qed.
Lemma image_back d i : assoc "bbox" d = Some (py_rect (i_box i)) -> assoc "image" d = Some (PStr (b64encode (i_bytes i))) ->
  assoc "ext" d = Some (i_ext i) -> assoc "width" d = Some (i_width i) -> assoc "height" d = Some (i_height i) ->
  new_image identity d = Some (c_image i).
Proof.
  intros H1 H2 H3 H4 H5. unfold new_image, get. rewrite H2, H3, H4, H5. cbn [image_bytes]. rewrite decode_encode. cbn [bind].
  rewrite (box_back _ (i_box i) H1). reflexivity.
Qed.
Lemma span_back s : named_span s -> new_span tl wr identity (store_span s) = Some (c_span s).
Proof.
  destruct s as [t|i]; cbn [named_span store_span]; intros H; [apply tspan_back, H|].
  unfold new_span, store_image. look. unfold image_fields. look.
  rewrite (image_back _ i) by reflexivity. reflexivity.
Qed.
Lemma line_back l : named_line l -> new_line tl wr identity (store_line l) = Some (c_line l).
Proof.
  intros H. unfold new_line, store_line. look. rewrite as_point_py. look. rewrite dir_identity.
  rewrite (mapo_map _ store_span c_span).
  - look. reflexivity.
  - intros x Hx. apply span_back. unfold named_line in H. rewrite Forall_forall in H. apply H, Hx.
Qed.
Lemma shape_back s : new_shape (store_shape s) = Some (c_shape s).
Proof.
  destruct s as [b t c|b t c u|b t c p q w]; unfold new_shape, store_shape, c_shape; look; rewrite as_rect_py; look.
  - destruct t; reflexivity.
  - destruct t; reflexivity.
  - rewrite !as_point_py. look. destruct (qlt (fst q) (fst p) || qlt (snd q) (snd p))%bool; destruct t; reflexivity.
Qed.
Lemma attrs_back b t a l : new_attrs (attrs_fields b t a ++ l) = a.
Proof. destruct a as [al x1 x2 x3 x4 x5 x6 x7 x8 x9]. unfold new_attrs, attrs_fields. cbn [a_align a_left a_right a_first a_before a_after a_line a_tabs a_ltotal a_rtotal app]. look. destruct al; reflexivity. Qed.

(* ---------------- blocks ---------------- *)
Lemma block_back x : storable x -> forall n, (depth (store_block x) <= n)%nat -> new_block tl wr n identity (store_block x) = Some (Some (c_block x)).
Proof.
  revert x.
  apply (block_nested
    (fun x => storable x -> forall n, (depth (store_block x) <= n)%nat -> new_block tl wr n identity (store_block x) = Some (Some (c_block x)))
    (fun r => storable_row r -> forall n, (depth (store_row r) <= n)%nat ->
        new_row_with (new_cell_with (new_block tl wr n identity) identity) identity (store_row r) = Some (c_row r))
    (fun c => storable_cell c -> forall n, (depth (store_cell c) <= n)%nat ->
        new_cell_with (new_block tl wr n identity) identity (store_cell c) = Some (c_cell c))).
  - intros t b a ls [-> H] n Hn. pose proof (depth_pos (store_block (TextB B_TEXT b a ls))) as D.
    destruct n as [|n]; [lia|]. cbn [new_block store_block]. look.
    rewrite attrs_back. unfold attrs_fields. cbn [app]. look.
    change (qeq (btype_value B_TEXT) (btype_value B_IMAGE)) with false. change (qeq (btype_value B_TEXT) (btype_value B_TEXT)) with true. cbv iota.
    rewrite (mapo_map _ store_line c_line) by (intros x Hx; apply line_back; exact (all_In _ _ x H Hx)).
    look. reflexivity.
  - intros t a i -> n Hn. pose proof (depth_pos (store_block (ImgB B_FLOAT a i))) as D.
    destruct n as [|n]; [lia|]. cbn [new_block store_block]. look.
    rewrite attrs_back. unfold attrs_fields, image_fields. cbn [app]. look.
    change (qeq (btype_value B_FLOAT) (btype_value B_IMAGE)) with false. change (qeq (btype_value B_FLOAT) (btype_value B_TEXT)) with false.
    change (qeq (btype_value B_FLOAT) (btype_value B_FLOAT)) with true. cbv iota.
    rewrite (image_back _ i) by reflexivity. reflexivity.
  - intros t b a rows IH [Ht Hr] n Hn.
    assert (Hd : forall r, In r rows -> (S (depth (store_row r)) < depth (store_block (TableB t b a rows)))%nat).
    { intros r Hin. cbn [store_block].
      assert (D1 : (depth (store_row r) < depth (PList (map store_row rows)))%nat) by (apply depth_list, in_map, Hin).
      assert (D2 : (depth (PList (map store_row rows)) < depth (PDict (attrs_fields b t a ++ [("rows", PList (map store_row rows))])))%nat).
      { apply (depth_dict _ "rows"). apply in_or_app. right. left. reflexivity. }
      lia. }
    pose proof (depth_pos (store_block (TableB t b a rows))) as D.
    destruct n as [|n]; [lia|]. cbn [new_block store_block]. look.
    rewrite attrs_back. unfold attrs_fields. cbn [app]. look.
    assert (T : (qeq (btype_value t) (btype_value B_IMAGE) = false /\ qeq (btype_value t) (btype_value B_TEXT) = false /\
                 qeq (btype_value t) (btype_value B_FLOAT) = false /\ (qeq (btype_value t) (btype_value B_LATTICE) || qeq (btype_value t) (btype_value B_STREAM))%bool = true)).
    { destruct Ht as [-> | ->]; repeat split; reflexivity. }
    destruct T as (T1 & T2 & T3 & T4). rewrite T1, T2, T3, T4.
    rewrite (box_back _ b) by reflexivity. look.
    rewrite (mapo_map _ store_row c_row).
    + look. reflexivity.
    + intros r Hin. rewrite Forall_forall in IH. apply IH; [exact Hin|exact (all_In _ _ r Hr Hin)|]. specialize (Hd r Hin). lia.
  - intros b h cells IH H n Hn. unfold new_row_with. cbn [store_row]. look. rewrite (box_back _ b) by reflexivity. look.
    rewrite (mapo_map _ store_cell c_cell).
    + look. reflexivity.
    + intros c Hin. rewrite Forall_forall in IH. apply IH; [exact Hin|exact (all_In _ _ c H Hin)|].
      cbn [store_row] in Hn.
      assert (D1 : (depth (store_cell c) < depth (PList (map store_cell cells)))%nat) by (apply depth_list, in_map, Hin).
      assert (D2 : (depth (PList (map store_cell cells)) < depth (PDict [("bbox", py_rect b); ("height", h); ("cells", PList (map store_cell cells))]))%nat).
      { apply (depth_dict _ "cells"). right. right. left. reflexivity. }
      lia.
  - intros b bg bc bw mg bs fs sh IHb IHf [Hb Hf] n Hn. unfold new_cell_with. cbn [store_cell c_cell] in *.
    destruct (rect_bool b) eqn:E.
    + look. rewrite (box_back _ b) by reflexivity. look. rewrite <- map_app.
      rewrite (mapo_map _ store_block (fun x => Some (c_block x))).
      * look. cbn [mapo]. look. rewrite flat_opt, map_app. reflexivity.
      * intros x Hin.
        assert (D1 : (depth (store_block x) < depth (PList (map store_block bs ++ map store_block fs)))%nat).
        { rewrite <- map_app. apply depth_list, in_map, Hin. }
        assert (D2 : (depth (PList (map store_block bs ++ map store_block fs)) < depth (PDict [("bbox", py_rect b); ("bg_color", bg); ("border_color", bc); ("border_width", bw); ("merged_cells", mg); ("blocks", PList (map store_block bs ++ map store_block fs))]))%nat).
        { apply (depth_dict _ "blocks"). do 5 right. left. reflexivity. }
        rewrite Forall_forall in IHb, IHf. apply in_app_or in Hin. destruct Hin as [Hin|Hin].
        -- apply IHb; [exact Hin|exact (all_In _ _ x Hb Hin)|lia].
        -- apply IHf; [exact Hin|exact (all_In _ _ x Hf Hin)|lia].
    + reflexivity.
Qed.

Theorem page_back p old : page_storable p -> restore_page tl wr identity (store_page p) old = Some (c_page p old).
Proof.
  intros [Hb Hf]. unfold restore_page. set (n := depth (store_page p)).
  assert (Hn : forall x, In x (p_blocks p ++ p_floats p) -> (depth (store_block x) <= n)%nat).
  { intros x Hx. subst n. unfold store_page.
    assert (D1 : (depth (store_block x) < depth (PList (map store_block (p_blocks p) ++ map store_block (p_floats p))))%nat).
    { rewrite <- map_app. apply depth_list, in_map, Hx. }
    match goal with |- (_ <= depth (PDict ?d))%nat => assert (D2 : (depth (PList (map store_block (p_blocks p) ++ map store_block (p_floats p))) < depth (PDict d))%nat) end.
    { apply (depth_dict _ "blocks"). do 4 right. left. reflexivity. }
    lia. }
  unfold store_page. look. rewrite <- map_app.
  rewrite (mapo_map _ store_block (fun x => Some (c_block x))).
  - look. rewrite (mapo_map _ store_shape c_shape) by (intros s _; apply shape_back). look.
    rewrite flat_opt, map_app. reflexivity.
  - intros x Hx. apply block_back; [|apply Hn, Hx]. apply in_app_or in Hx. destruct Hx as [Hx|Hx]; [exact (all_In _ _ x Hb Hx)|exact (all_In _ _ x Hf Hx)].
Qed.
End Fitz.
