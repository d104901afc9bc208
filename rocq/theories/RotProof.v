(** Proofs about turned pages. *)
From Verif Require Import RotSpec StoreSpec StoreProof.
From Coq Require Import Lia Lqa.
Open Scope Q_scope.
Open Scope list_scope.

Section Rot.
Variables (r : rotation) (w h : Q).
Notation m := (rotation_matrix r w h).
Notation T := (turned r w h).
Definition tval (k : string) (x : pyval) : pyval :=
  if String.eqb k "bbox" then turn_box r w h x else if String.eqb k "dir" then turn_dir r x
  else if String.eqb k "origin" then turn_point r w h x
  else if container k then T x else x.
Definition tdict (d : dict) : dict := map (fun kv => (fst kv, tval (fst kv) (snd kv))) d.
Lemma turned_dict d : T (PDict d) = PDict (tdict d).
Proof. reflexivity. Qed.

Lemma assoc_tdict k d : assoc k (tdict d) = option_map (tval k) (assoc k d).
Proof.
  induction d as [|[k' v] d IH]; [reflexivity|]. cbn [tdict map assoc fst snd]. destruct (String.eqb k k') eqn:E.
  - apply String.eqb_eq in E. subst k'. reflexivity.
  - exact IH.
Qed.
Lemma has_tdict k d : has k (tdict d) = has k d.
Proof. unfold has. rewrite assoc_tdict. destruct (assoc k d); reflexivity. Qed.
Definition plain (k : string) : bool := negb (existsb (String.eqb k) ["bbox"; "dir"; "origin"]%string || container k).
Definition inner (k : string) : bool := negb (existsb (String.eqb k) ["bbox"; "dir"; "origin"]%string) && container k.
Lemma tval_plain k x : plain k = true -> tval k x = x.
Proof. unfold plain, tval. cbn [existsb]. destruct (String.eqb k "bbox"), (String.eqb k "dir"), (String.eqb k "origin"), (container k); (discriminate || reflexivity). Qed.
Lemma tval_inner k x : inner k = true -> tval k x = T x.
Proof. unfold inner, tval. cbn [existsb]. destruct (String.eqb k "bbox"), (String.eqb k "dir"), (String.eqb k "origin"), (container k); (discriminate || reflexivity). Qed.
(** Entries that hold neither a box, a direction nor text are not changed. *)
Lemma get_plain k v d : plain k = true -> get k v (tdict d) = get k v d.
Proof. intros A. unfold get. rewrite assoc_tdict. destruct (assoc k d) as [x|]; [|reflexivity]. cbn [option_map]. apply tval_plain. exact A. Qed.
Lemma get_inner k d : inner k = true -> get k (PList []) (tdict d) = T (get k (PList []) d).
Proof. intros A. unfold get. rewrite assoc_tdict. destruct (assoc k d) as [x|]; [|reflexivity]. cbn [option_map]. apply tval_inner. exact A. Qed.
Lemma as_dict_turned v : as_dict (T v) = option_map tdict (as_dict v).
Proof. destruct v; reflexivity. Qed.
Lemma as_list_turned v : as_list (T v) = option_map (map T) (as_list v).
Proof. destruct v; reflexivity. Qed.

Lemma turn_spec x0 y0 x1 y1 : exists b, turn_box r w h (py_rect (mkRect x0 y0 x1 y1)) = py_rect b /\ req (rmul (mkRect x0 y0 x1 y1) m) b.
Proof.
  unfold turn_box, py_rect. cbn [as_rect rx0 ry0 rx1 ry1]. eexists. split; [reflexivity|].
  unfold rmul. destruct r; cbn [rotation_matrix ma mb mc md me mf];
    change (qeq 0 0) with true; change (qeq 1 0) with false; change (qeq (-1) 0) with false; cbn [andb];
    change (qlt 1 0) with false; change (qlt (-1) 0) with true; cbv iota;
    unfold mul_point, req; cbn [rotation_matrix ma mb mc md me mf rx0 ry0 rx1 ry1]; rewrite !Qred_correct; repeat split; ring.
Qed.
Lemma as_rect_inv v b : as_rect v = Some b -> v = py_rect b.
Proof.
  destruct v; try discriminate. destruct l as [|a [|b' [|c [|d [|e l]]]]]; cbn [as_rect]; try discriminate;
    try (destruct a; discriminate); try (destruct a; try discriminate; destruct b'; discriminate);
    try (destruct a; try discriminate; destruct b'; try discriminate; destruct c; discriminate).
  - destruct a; try discriminate; destruct b'; try discriminate; destruct c; try discriminate; destruct d; try discriminate.
    intros E. injection E as <-. reflexivity.
  - destruct a; try discriminate; destruct b'; try discriminate; destruct c; try discriminate; destruct d; discriminate.
Qed.
Lemma as_point_inv v p : as_point v = Some p -> v = py_point p.
Proof.
  destruct v; try discriminate. destruct l as [|a [|b' [|c l]]]; cbn [as_point]; try discriminate;
    try (destruct a; discriminate).
  - destruct a; try discriminate; destruct b'; try discriminate. intros E. injection E as <-. reflexivity.
  - destruct a; try discriminate; destruct b'; discriminate.
Qed.
Lemma element_turned d : element_box m d = element_box identity (tdict d).
Proof.
  unfold element_box. rewrite assoc_tdict. destruct (assoc "bbox" d) as [v|]; [|reflexivity]. cbn [option_map]. unfold tval.
  change (String.eqb "bbox" "bbox") with true. cbv iota. destruct (as_rect v) as [b|] eqn:E.
  - apply as_rect_inv in E. subst v. destruct b as [x0 y0 x1 y1]. destruct (turn_spec x0 y0 x1 y1) as (b & -> & Rb).
    unfold py_rect. cbn [as_rect bind]. f_equal. destruct b as [a0 b0 a1 b1]. cbn [rx0 ry0 rx1 ry1].
    rewrite (rround_same _ _ (rmul_identity (mkRect a0 b0 a1 b1))). apply rround_same. exact Rb.
  - unfold turn_box. rewrite E, E. reflexivity.
Qed.
Lemma dir_turned p : mul_point (pure m) p = mul_point (pure identity) (seen_arrow r p).
Proof.
  destruct p as [x y]. unfold mul_point, pure, seen_arrow, identity. cbn [ma mb mc md me mf].
  destruct r; cbn [rotation_matrix ma mb mc md me mf]; f_equal; apply Qred_complete; ring.
Qed.
Lemma dirs_turned d :
  match assoc "dir" d with None => Some (1, 0) | Some p => bind (as_point p) (fun q => Some (mul_point (pure m) q)) end =
  match assoc "dir" (tdict d) with None => Some (1, 0) | Some p => bind (as_point p) (fun q => Some (mul_point (pure identity) q)) end.
Proof.
  rewrite assoc_tdict. destruct (assoc "dir" d) as [v|]; [|reflexivity]. cbn [option_map]. unfold tval.
  change (String.eqb "dir" "bbox") with false. change (String.eqb "dir" "dir") with true. cbv iota.
  destruct (as_point v) as [p|] eqn:E.
  - unfold turn_dir. rewrite E. cbn [bind]. destruct (seen_arrow r p) as [a b] eqn:Ea. unfold py_point. cbn [fst snd as_point bind].
    rewrite dir_turned, Ea. reflexivity.
  - unfold turn_dir. rewrite E. rewrite E. reflexivity.
Qed.

(* ---------------- depth ---------------- *)
Lemma turn_box_depth v : depth (turn_box r w h v) = depth v.
Proof.
  unfold turn_box. destruct (as_rect v) as [b|] eqn:E; [|reflexivity]. apply as_rect_inv in E. subst v. destruct b. destruct r; reflexivity.
Qed.
Lemma turn_dir_depth v : depth (turn_dir r v) = depth v.
Proof.
  unfold turn_dir. destruct (as_point v) as [b|] eqn:E; [|reflexivity]. apply as_point_inv in E. subst v. destruct b. destruct r; reflexivity.
Qed.
Lemma turn_point_depth v : depth (turn_point r w h v) = depth v.
Proof.
  unfold turn_point. destruct (as_point v) as [b|] eqn:E; [|reflexivity]. apply as_point_inv in E. subst v. destruct b. destruct r; reflexivity.
Qed.
Fixpoint depth_turned (v : pyval) : depth (T v) = depth v.
Proof.
  destruct v as [|q|s|s|l|d]; try reflexivity.
  - cbn [turned depth]. f_equal. induction l as [|a l IH]; [reflexivity|]. cbn [map fold_right]. rewrite depth_turned, IH. reflexivity.
  - rewrite turned_dict. cbn [depth]. f_equal. induction d as [|[k v] d IH]; [reflexivity|]. cbn [tdict map fold_right fst snd]. f_equal; [|exact IH].
    unfold tval. destruct (String.eqb k "bbox"); [apply turn_box_depth|]. destruct (String.eqb k "dir"); [apply turn_dir_depth|].
    destruct (String.eqb k "origin"); [apply turn_point_depth|].
    destruct (container k); [apply depth_turned|reflexivity].
Qed.

(* ---------------- fonts ---------------- *)
Lemma fonts_list l x : fonts_named (PList l) -> In x l -> fonts_named x.
Proof. cbn [fonts_named]. induction l as [|a l IH]; [intros _ []|]. cbn [fold_right]. intros [A B] [<-|H]; [exact A|apply IH; assumption]. Qed.
Lemma fonts_as_list v l x : fonts_named v -> as_list v = Some l -> In x l -> fonts_named x.
Proof. destruct v; try discriminate. intros F E. injection E as ->. apply fonts_list. exact F. Qed.
Lemma fonts_entry d k x : fonts_named (PDict d) -> assoc k d = Some x -> container k = true -> fonts_named x.
Proof.
  cbn [fonts_named]. intros [_ F] E C. induction d as [|[k' v] d IH]; [discriminate|]. cbn [assoc] in E. cbn [fold_right fst snd] in F. destruct F as [F1 F2].
  destruct (String.eqb k k') eqn:Ek; [|apply IH; assumption]. apply String.eqb_eq in Ek. subst k'. injection E as ->. rewrite C in F1. exact F1.
Qed.
Lemma fonts_get d k : fonts_named (PDict d) -> container k = true -> fonts_named (get k (PList []) d).
Proof. intros F C. unfold get. destruct (assoc k d) as [x|] eqn:E; [apply (fonts_entry d k x F E C)|exact I]. Qed.
Lemma fonts_dict v d : fonts_named v -> as_dict v = Some d -> fonts_named (PDict d).
Proof. destruct v; try discriminate. intros F E. injection E as ->. exact F. Qed.

(* ---------------- elements ---------------- *)
(** Two results alike after [p]. *)
Definition oeq {A B} (p : A -> B) (x y : option A) : Prop := option_map p x = option_map p y.
Lemma oeq_bind {A B C D} (p : A -> B) (q : C -> D) x y (f g : A -> option C) :
  oeq p x y -> (forall a b, p a = p b -> oeq q (f a) (g b)) -> oeq q (bind x f) (bind y g).
Proof. unfold oeq. destruct x, y; cbn [option_map bind]; try discriminate; intros E H; [apply H; congruence|reflexivity]. Qed.
Lemma oeq_same {A B C} (q : B -> C) (x : option A) (f g : A -> option B) :
  (forall a, x = Some a -> oeq q (f a) (g a)) -> oeq q (bind x f) (bind x g).
Proof. destruct x; cbn [bind]; intros H; [apply H; reflexivity|reflexivity]. Qed.
Lemma oeq_some {A B} (p : A -> B) a b : p a = p b -> oeq p (Some a) (Some b).
Proof. unfold oeq. cbn [option_map]. congruence. Qed.
Lemma mapo_oeq {A B} (p : A -> B) (f g : pyval -> option A) l :
  (forall x, In x l -> oeq p (f x) (g (T x))) -> oeq (map p) (mapo f l) (mapo g (map T l)).
Proof.
  induction l as [|a l IH]; intros H; [reflexivity|]. cbn [mapo map]. apply oeq_bind with (p := p); [apply H; left; reflexivity|].
  intros x y E. apply oeq_bind with (p := map p); [apply IH; intros z Hz; apply H; right; exact Hz|].
  intros u v E'. apply oeq_some. cbn [map]. congruence.
Qed.
Lemma list_oeq {A B} (p : A -> B) k (f g : pyval -> option A) d :
  inner k = true -> fonts_named (PDict d) -> container k = true ->
  (forall x, fonts_named x -> oeq p (f x) (g (T x))) ->
  oeq (map p) (bind (as_list (get k (PList []) d)) (mapo f)) (bind (as_list (get k (PList []) (tdict d))) (mapo g)).
Proof.
  intros Hi F C H. rewrite (get_inner k d Hi), as_list_turned. pose proof (fonts_get d k F C) as Fl.
  destruct (as_list (get k (PList []) d)) as [l|] eqn:E; [|reflexivity]. cbn [option_map bind]. apply mapo_oeq.
  intros x Hx. apply H. exact (fonts_as_list _ _ _ Fl E Hx).
Qed.
Lemma bind_bind {A B C} (x : option A) (f : A -> option B) (g : B -> option C) : bind x (fun a => bind (f a) g) = bind (bind x f) g.
Proof. destruct x; reflexivity. Qed.
Lemma kept_bare {A B} (p : A -> B) (bx : A -> rect) (bx' : B -> rect) l : (forall x, bx' (p x) = bx x) -> map p (kept bx l) = kept bx' (map p l).
Proof. intros H. unfold kept. induction l as [|a l IH]; [reflexivity|]. cbn [filter map]. rewrite H. destruct (rect_bool (bx a)); cbn [map]; rewrite IH; reflexivity. Qed.
Lemma grown_bare {A B} (p : A -> B) (bx : A -> rect) (bx' : B -> rect) l b : (forall x, bx' (p x) = bx x) -> grown bx b l = grown bx' b (map p l).
Proof. intros H. unfold grown. revert b. induction l as [|a l IH]; intros b; [reflexivity|]. cbn [fold_left map]. rewrite H. apply IH. Qed.
Lemma grown_alike {A B} (p : A -> B) (bx : A -> rect) (bx' : B -> rect) l1 l2 b : (forall x, bx' (p x) = bx x) -> map p l1 = map p l2 -> grown bx b l1 = grown bx b l2.
Proof. intros H E. rewrite (grown_bare p bx bx' l1 b H), (grown_bare p bx bx' l2 b H), E. reflexivity. Qed.
Lemma kept_alike {A B} (p : A -> B) (bx : A -> rect) (bx' : B -> rect) l1 l2 : (forall x, bx' (p x) = bx x) -> map p l1 = map p l2 -> map p (kept bx l1) = map p (kept bx l2).
Proof. intros H E. rewrite (kept_bare p bx bx' l1 H), (kept_bare p bx bx' l2 H), E. reflexivity. Qed.
Lemma bare_span_box s : span_box (bare_span s) = span_box s. Proof. destruct s; reflexivity. Qed.
Lemma bare_line_box s : l_box (bare_line s) = l_box s. Proof. reflexivity. Qed.
Lemma bare_block_box s : block_box (bare_block s) = block_box s. Proof. destruct s; reflexivity. Qed.
Lemma bare_row_box s : row_box (bare_row s) = row_box s. Proof. destruct s; reflexivity. Qed.
Lemma bare_cell_box s : cell_box (bare_cell s) = cell_box s. Proof. destruct s; reflexivity. Qed.

Variable tl : string -> Q -> Q.
Variable wr : pyval -> string -> Q -> rect.
Ltac plains := rewrite !get_plain by reflexivity.
Ltac dict v F := rewrite as_dict_turned; destruct (as_dict v) as [d|] eqn:Ed; cbn [option_map bind]; [|reflexivity]; try pose proof (fonts_dict _ _ F Ed) as Fd.
Lemma char_turned v : oeq bare_char (new_char m v) (new_char identity (T v)).
Proof.
  unfold new_char. dict v I. plains. apply oeq_same. intros c _. rewrite element_turned. apply oeq_same. intros b _. apply oeq_some. reflexivity.
Qed.
Lemma image_turned d : new_image m d = new_image identity (tdict d).
Proof. unfold new_image. plains. rewrite element_turned. reflexivity. Qed.
Lemma tspan_turned d : fonts_named (PDict d) ->
  oeq (fun t => bare_span (TSpan t)) (new_tspan tl wr m d) (new_tspan tl wr identity (tdict d)).
Proof.
  intros F. unfold new_tspan. plains. apply oeq_same. intros f Ef. apply oeq_same. intros q _. rewrite !bind_bind.
  apply oeq_bind with (p := map bare_char).
  { apply list_oeq; [reflexivity|exact F|reflexivity|]. intros x _. apply char_turned. }
  intros c1 c2 Ec. rewrite element_turned. apply oeq_same. intros b _.
  assert (U : unnamed f = false).
  { unfold get in Ef. destruct F as [F _]. destruct (assoc "font" d) as [v|]; [|injection Ef as <-; vm_compute; reflexivity].
    destruct v; try discriminate. injection Ef as <-. apply F. reflexivity. }
  rewrite U. plains. apply oeq_some. cbn [bare_span s_box s_color s_font s_size s_flags s_chars s_style]. rewrite Ec. reflexivity.
Qed.
Lemma span_turned v : fonts_named v -> oeq bare_span (new_span tl wr m v) (new_span tl wr identity (T v)).
Proof.
  intros F. unfold new_span. dict v F. rewrite has_tdict. destruct (has "image" d).
  - rewrite image_turned. reflexivity.
  - pose proof (tspan_turned d Fd) as H. unfold oeq in *. destruct (new_tspan tl wr m d), (new_tspan tl wr identity (tdict d)); cbn [option_map] in *; congruence.
Qed.
Lemma line_turned v : fonts_named v -> oeq bare_line (new_line tl wr m v) (new_line tl wr identity (T v)).
Proof.
  intros F. unfold new_line. dict v F. rewrite (dirs_turned d). apply oeq_same. intros dir _. rewrite !bind_bind.
  apply oeq_bind with (p := map bare_span).
  { apply list_oeq; [reflexivity|exact Fd|reflexivity|]. apply span_turned. }
  intros s1 s2 Es. plains. apply oeq_some. unfold bare_line. cbn [l_box l_wmode l_dir l_break l_spans].
  pose proof (kept_alike _ _ _ _ _ bare_span_box Es) as K. rewrite K, (grown_alike _ _ _ _ _ rect0 bare_span_box K). reflexivity.
Qed.
Lemma text_block_turned t a l1 l2 : map bare_line l1 = map bare_line l2 -> bare_block (text_block t a l1) = bare_block (text_block t a l2).
Proof.
  intros E. unfold text_block. cbn [bare_block].
  pose proof (kept_alike _ _ _ _ _ bare_line_box E) as K. rewrite K, (grown_alike _ _ _ _ _ rect0 bare_line_box K). reflexivity.
Qed.
Lemma attrs_turned d : new_attrs (tdict d) = new_attrs d.
Proof. unfold new_attrs. plains. reflexivity. Qed.
Lemma opt_bare l1 l2 : map (option_map bare_block) l1 = map (option_map bare_block) l2 ->
  map bare_block (kept block_box (flat_map opt_list l1)) = map bare_block (kept block_box (flat_map opt_list l2)).
Proof.
  intros E. rewrite !(kept_bare bare_block block_box block_box _ bare_block_box). f_equal.
  assert (G : forall l, map bare_block (flat_map opt_list l) = flat_map opt_list (map (option_map bare_block) l)).
  { induction l as [|[b|] l IH]; [reflexivity| |]; cbn [flat_map opt_list app map option_map]; rewrite IH; reflexivity. }
  rewrite !G, E. reflexivity.
Qed.
Definition raw_or (v : pyval) : option dict := match v with PNone => Some [] | _ => as_dict v end.
Definition cell_dict (nb : pyval -> option (option block)) (mm : matrix) (d : dict) : option cell :=
  let* braw := as_list (get "blocks" (PList []) d) in
  let* bs := mapo nb braw in
  let* sraw := as_list (get "shapes" (PList []) d) in
  let* shapes := mapo new_shape sraw in
  let* b := element_box mm d in
  Some (Cell b (get "bg_color" PNone d) (get "border_color" (PList [PNum 0; PNum 0; PNum 0; PNum 0]) d)
          (get "border_width" (PList [PNum 0; PNum 0; PNum 0; PNum 0]) d) (get "merged_cells" (PList [PNum 1; PNum 1]) d)
          (kept block_box (flat_map opt_list bs)) [] (kept shape_box shapes)).
Lemma cell_turned nb nb' v : (forall x, fonts_named x -> oeq (option_map bare_block) (nb x) (nb' (T x))) -> fonts_named v ->
  oeq bare_cell (new_cell_with nb m v) (new_cell_with nb' identity (T v)).
Proof.
  intros H F. unfold new_cell_with.
  change (oeq bare_cell (bind (raw_or v) (cell_dict nb m)) (bind (raw_or (T v)) (cell_dict nb' identity))).
  assert (D : raw_or (T v) = option_map tdict (raw_or v)) by (destruct v; reflexivity).
  rewrite D. assert (Fd : forall d, raw_or v = Some d -> fonts_named (PDict d)).
  { intros d E. destruct v; try discriminate; injection E as <-; [|exact F]. split; [discriminate|exact I]. }
  destruct (raw_or v) as [d|]; [|reflexivity]. specialize (Fd d eq_refl). cbn [option_map bind]. unfold cell_dict.
  rewrite !bind_bind. apply oeq_bind with (p := map (option_map bare_block)).
  { apply list_oeq; [reflexivity|exact Fd|reflexivity|exact H]. }
  intros b1 b2 Eb. plains. apply oeq_same. intros ss _. apply oeq_same. intros sh _. rewrite element_turned. apply oeq_same. intros b _.
  apply oeq_some. cbn [bare_cell map]. rewrite (opt_bare _ _ Eb). reflexivity.
Qed.
Lemma row_turned nc nc' v : (forall x, fonts_named x -> oeq bare_cell (nc x) (nc' (T x))) -> fonts_named v ->
  oeq bare_row (new_row_with nc m v) (new_row_with nc' identity (T v)).
Proof.
  intros H F. unfold new_row_with. dict v F. rewrite element_turned. apply oeq_same. intros b _. rewrite !bind_bind.
  apply oeq_bind with (p := map bare_cell).
  { apply list_oeq; [reflexivity|exact Fd|reflexivity|exact H]. }
  intros c1 c2 Ec. plains. apply oeq_some. cbn [bare_row]. rewrite (grown_alike _ _ _ _ _ b bare_cell_box Ec), Ec. reflexivity.
Qed.
Lemma block_turned n v : fonts_named v -> oeq (option_map bare_block) (new_block tl wr n m v) (new_block tl wr n identity (T v)).
Proof.
  revert v. induction n as [|n IH]; intros v F; [reflexivity|]. cbn [new_block]. dict v F. plains.
  repeat match goal with |- context[if ?c then _ else _] => destruct c end; try reflexivity.
  - rewrite image_turned. reflexivity.
  - rewrite !bind_bind. apply oeq_bind with (p := map bare_line).
    { apply list_oeq; [reflexivity|exact Fd|reflexivity|]. apply line_turned. }
    intros l1 l2 El. rewrite attrs_turned. apply oeq_some. cbn [option_map]. f_equal. apply text_block_turned. exact El.
  - rewrite image_turned, attrs_turned. reflexivity.
  - rewrite element_turned. apply oeq_same. intros b _. rewrite !bind_bind. apply oeq_bind with (p := map bare_row).
    { apply list_oeq; [reflexivity|exact Fd|reflexivity|]. intros x Fx. apply row_turned; [|exact Fx].
      intros y Fy. apply cell_turned; [|exact Fy]. exact IH. }
    intros r1 r2 Er. rewrite attrs_turned. apply oeq_some. cbn [option_map bare_block].
    pose proof (kept_alike _ _ _ _ _ bare_row_box Er) as K. rewrite K, (grown_alike _ _ _ _ _ b bare_row_box K). reflexivity.
Qed.
Lemma page_turned v old : fonts_named v -> oeq bare_page (restore_page tl wr m v old) (restore_page tl wr identity (T v) old).
Proof.
  intros F. unfold restore_page. rewrite depth_turned. dict v F. rewrite !bind_bind. apply oeq_bind with (p := map (option_map bare_block)).
  { apply list_oeq; [reflexivity|exact Fd|reflexivity|]. apply block_turned. }
  intros b1 b2 Eb. plains. apply oeq_same. intros ss _. apply oeq_same. intros sh _. apply oeq_some. unfold bare_page.
  cbn [p_id p_width p_height p_margin p_blocks p_floats p_shapes]. rewrite (opt_bare _ _ Eb). reflexivity.
Qed.
End Rot.
