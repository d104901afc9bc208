(** Storing and restoring pages (C13), image bytes (C41), and what multi-processing
    (which passes pages through store/restore, C10) does with them. *)
From Verif Require Import StoreSpec StoreProof StoreProof2 StoreProof3 ImageProof.
From Verif Require DocxModel DocxSpec DocxProps GeomProof.
From Coq Require Import Lqa Lia Arith.
Open Scope Q_scope.
Open Scope list_scope.

(** C13: whatever is stored can be read back (no exception), into any page; the result
    is described by [c_page].  [tl] and [wr] are the font metrics of PyMuPDF. *)
Theorem C13_page_round_trip : forall tl wr p old, page_storable p ->
  restore_page tl wr identity (store_page p) old = Some (c_page p old).
Proof. intros. apply page_back. assumption. Qed.
Print Assumptions C13_page_round_trip.
(** C13: a page without floating images, in the form the parser and [restore] leave
    it, is reproduced exactly; floating images come back as ordinary blocks. *)
Theorem C13_settled_identity : forall tl wr p, settled_page p ->
  restore_page tl wr identity (store_page p) new_page =
    Some (mkPage (p_id p) (p_width p) (p_height p) (p_margin p) (p_blocks p ++ p_floats p) [] (p_shapes p)) /\
  (p_floats p = [] -> restore_page tl wr identity (store_page p) new_page = Some p).
Proof.
  intros tl wr p H. destruct (page_same p new_page H) as [S E].
  assert (R : restore_page tl wr identity (store_page p) new_page =
    Some (mkPage (p_id p) (p_width p) (p_height p) (p_margin p) (p_blocks p ++ p_floats p) [] (p_shapes p)))
    by (rewrite (page_back tl wr p new_page S), E; reflexivity).
  split; [exact R|]. intros F. rewrite R, F, app_nil_r. destruct p. cbn in *. subst. reflexivity.
Qed.
Print Assumptions C13_settled_identity.
(** C13: what was read back once is stored and read back without any further change,
    as often as one likes. *)
Theorem C13_second_round : forall tl wr p q, page_storable p -> regular_page p ->
  restore_page tl wr identity (store_page p) new_page = Some q ->
  restore_page tl wr identity (store_page q) new_page = Some q.
Proof.
  intros tl wr p q S R E. rewrite (page_back tl wr p new_page S) in E. injection E as <-.
  apply C13_settled_identity; [apply c_page_settled; assumption|reflexivity].
Qed.
Print Assumptions C13_second_round.
(** C13: the stored form can be written as JSON: it contains no raw bytes. *)
Theorem C13_json : forall p, plain_page p -> plain (store_page p) = true.
Proof. exact plain_store_page. Qed.
Print Assumptions C13_json.
(** C13: the text of the tables is the same before and after. *)
Theorem C13_tables_kept : forall tl wr strip stream p q, settled_page p ->
  (forall x, In x (p_floats p) -> exists t a i, x = ImgB t a i) ->
  restore_page tl wr identity (store_page p) new_page = Some q ->
  extract_tables strip stream q = extract_tables strip stream p.
Proof.
  intros tl wr strip stream p q H F E. destruct (C13_settled_identity tl wr p H) as [R _]. rewrite R in E. injection E as <-.
  unfold extract_tables. cbn [p_blocks]. rewrite filter_app, map_app.
  assert (N : filter (if stream then is_table else is_lattice) (p_floats p) = []).
  { clear - F. induction (p_floats p) as [|x l IH]; [reflexivity|]. cbn [filter]. destruct (F x (or_introl eq_refl)) as (t & a & i & ->).
    rewrite IH by (intros y Hy; apply F; right; exact Hy). destruct stream; reflexivity. }
  rewrite N. apply app_nil_r.
Qed.
Print Assumptions C13_tables_kept.

(** A page that meets all the hypotheses: a formatted span with an inline image, a
    table with an empty (merged) cell and a nested table, strokes and a link. *)
Definition zr (a b c d : Z) : rect := rround (mkRect (inject_Z a / 10) (inject_Z b / 10) (inject_Z c / 10) (inject_Z d / 10)).
Definition ex_attrs : battrs := mkAttrs A_JUSTIFY (PNum 3) (PNum 0) (PNum 10) (PNum 5) (PNum 0) (PNum (11 # 10)) (PList []) (PNum 3) (PNum 0).
Definition ex_char (a b c d : Z) (s : string) : char := mkChar (zr a b c d) s (PList [PNum 1; PNum 2]).
Definition ex_span : span := TSpan (mkTSpan (zr 100 100 220 210) (PNum 255) "Arial"%string 12 (PNum 16)
  [ex_char 100 100 160 210 "A"; ex_char 160 100 220 210 "B"]%string (PList [])).
Definition ex_image : image := mkImage (zr 230 100 300 210) (PStr "png"%string) (PNum 7) (PNum 11) "PNG?"%string.
Definition ex_line : line := mkLine (grown span_box rect0 [ex_span; ISpan ex_image]) (PNum 0) (1, 0) (PNum 1) [ex_span; ISpan ex_image].
Definition ex_text : block := TextB B_TEXT (grown l_box rect0 [ex_line]) ex_attrs [ex_line].
Definition four (v : pyval) : pyval := PList [v; v; v; v].
Definition cell_of (b : rect) (bs : list block) : cell := Cell b PNone (four (PNum 0)) (four (PNum 1)) (PList [PNum 1; PNum 1]) bs [] [].
Definition ex_nested : block := TableB B_LATTICE (zr 100 100 300 210) ex_attrs [Row (zr 100 100 300 210) (PNum 11) [cell_of (zr 100 100 300 210) [ex_text]]].
Definition ex_table (t : btype) : block :=
  TableB t (zr 90 90 500 400) ex_attrs [Row (zr 90 90 500 400) (PNum 31) [cell_of (zr 90 90 310 400) [ex_nested; ex_text]; empty_cell; cell_of (zr 310 90 500 400) []]].
Definition ex_shapes : list shape :=
  [Fill (zr 10 10 50 50) R_SHADING (PNum 255); Link (zr 10 60 50 70) R_HYPERLINK (PNum 0) (PStr "http://a"%string);
   Stroke (rround (stroke_area (9, 9) (50, 9) 1)) R_BORDER (PNum 0) (9, 9) (50, 9) 1].
Definition ex_page (t : btype) (fl : list block) : page := mkPage (PNum 3) (PNum 595) (PNum 842) (four (PNum 72)) [ex_text; ex_table t] fl ex_shapes.
Definition ex_float : block := ImgB B_FLOAT ex_attrs ex_image.
Ltac triv := repeat match goal with
  | |- _ /\ _ => split
  | |- True => exact I
  | |- ?x = ?x => reflexivity
  | |- Forall _ _ => constructor
  | |- _ <= _ => vm_compute; discriminate
  end.
Lemma ex_settled fl : all settled fl -> settled_page (ex_page B_LATTICE fl).
Proof.
  intros H.
  assert (Sc : forall a b c d s, settled_char (ex_char a b c d s)) by (intros; unfold settled_char, ex_char; cbn [c_box]; apply rround_rounded).
  assert (St : settled ex_text).
  { cbn [settled ex_text all]. split; [reflexivity|]. split; [reflexivity|]. split; [vm_compute; reflexivity|]. split; [|exact I].
    unfold settled_line. split; [reflexivity|]. split; [vm_compute; reflexivity|]. split; [reflexivity|]. split; [reflexivity|].
    split; [|split; [|exact I]].
    - unfold settled_span, ex_span. split; [apply rround_rounded|]. split; [vm_compute; reflexivity|]. split; [vm_compute; reflexivity|]. split; [vm_compute; reflexivity|].
      split; [apply Sc|]. split; [apply Sc|exact I].
    - split; [apply rround_rounded|vm_compute; reflexivity]. }
  assert (Sn : settled ex_nested).
  { cbn [settled ex_nested all settled_row settled_cell cell_of].
    split; [reflexivity|]. split; [apply rround_rounded|]. split; [vm_compute; reflexivity|]. split; [vm_compute; reflexivity|]. split; [|exact I].
    split; [apply rround_rounded|]. split; [vm_compute; reflexivity|]. split; [vm_compute; reflexivity|]. split; [|exact I].
    right. split; [apply rround_rounded|]. split; [vm_compute; reflexivity|]. split; [reflexivity|]. split; [reflexivity|]. split; [exact St|exact I]. }
  unfold settled_page, ex_page. cbn [p_blocks p_floats p_shapes]. split; [|split; [exact H|]].
  - cbn [all]. split; [exact St|]. split; [|exact I]. cbn [settled ex_table all settled_row].
    split; [reflexivity|]. split; [apply rround_rounded|]. split; [vm_compute; reflexivity|]. split; [vm_compute; reflexivity|]. split; [|exact I].
    split; [apply rround_rounded|]. split; [vm_compute; reflexivity|]. split; [vm_compute; reflexivity|].
    split; [|split; [|split; [|exact I]]].
    + right. split; [apply rround_rounded|]. split; [vm_compute; reflexivity|]. split; [reflexivity|]. split; [reflexivity|]. split; [exact Sn|]. split; [exact St|exact I].
    + left. reflexivity.
    + right. split; [apply rround_rounded|]. split; [vm_compute; reflexivity|]. split; [reflexivity|]. split; [reflexivity|]. exact I.
  - cbn [all ex_shapes settled_shape shape_box fst snd]. repeat split; try apply rround_rounded; try (vm_compute; reflexivity); try (vm_compute; discriminate).
Qed.
Lemma ex_float_settled : settled ex_float.
Proof. cbn [settled ex_float]. split; [reflexivity|]. split; [apply rround_rounded|vm_compute; reflexivity]. Qed.
Example C13_nonvacuous_page : settled_page (ex_page B_LATTICE []) /\ settled_page (ex_page B_LATTICE [ex_float; ex_float]) /\ plain_page (ex_page B_LATTICE [ex_float]).
Proof.
  split; [apply ex_settled; exact I|]. split; [apply ex_settled; split; [apply ex_float_settled|split; [apply ex_float_settled|exact I]]|].
  vm_compute. repeat split.
Qed.
Lemma zr_boxed a b c d : (a <= c)%Z -> (b <= d)%Z -> boxed (zr a b c d).
Proof.
  intros H1 H2. split; [apply rround_rounded|]. apply rround_valid. split; cbn; apply Qmult_le_compat_r; try (rewrite <- Zle_Qle; assumption); vm_compute; discriminate.
Qed.
Example C13_nonvacuous_second : page_storable (ex_page B_STREAM [ex_float]) /\ regular_page (ex_page B_STREAM [ex_float]).
Proof.
  assert (Nc : no_comma_line ex_line).
  { cbn [no_comma_line ex_line all l_spans no_comma_span ex_span s_font]. split; [|split; exact I]. cbn. intros H. repeat (destruct H as [H|H]; [discriminate H|]). exact H. }
  assert (Nm : named_line ex_line) by (repeat constructor).
  assert (B0 : boxed (zr 100 100 300 210)) by (apply zr_boxed; lia).
  assert (B1 : boxed (zr 90 90 500 400)) by (apply zr_boxed; lia).
  assert (B2 : boxed (zr 90 90 310 400)) by (apply zr_boxed; lia).
  assert (B3 : boxed (zr 310 90 500 400)) by (apply zr_boxed; lia).
  assert (B4 : rect_bool rect0 = true -> boxed rect0) by discriminate.
  split.
  - unfold page_storable, ex_page. cbn [p_blocks p_floats all storable ex_text ex_table ex_nested storable_row storable_cell cell_of empty_cell ex_float]. tauto.
  - unfold regular_page, ex_page. cbn [p_blocks p_floats all regular ex_text ex_table ex_nested regular_row regular_cell cell_of empty_cell ex_float p_shapes ex_shapes axis_shape fst snd].
    assert (B5 : 9 == 9) by reflexivity. tauto.
Qed.
Example C13_nonvacuous_tables : extract_tables (fun s => s) false (ex_page B_LATTICE []) = [[[Some ("<NEST TABLE>" ++ newline ++ "AB<image>")%string; None; Some EmptyString]]].
Proof. vm_compute. reflexivity. Qed.

(** C13: what [restore] makes of a page that already has floating images: they stay. *)
Theorem C13_restore_keeps_old_floats : forall tl wr m v old q, restore_page tl wr m v old = Some q -> p_floats q = p_floats old.
Proof.
  intros tl wr m v old q. unfold restore_page, bind. intros H.
  repeat match type of H with match ?e with Some _ => _ | None => None end = _ => destruct e; [|discriminate H] end.
  injection H as <-. reflexivity.
Qed.
Print Assumptions C13_restore_keeps_old_floats.

(** Finding (C10, C13): a page that went through store and restore - as every page does
    under multi-processing - has no floating images any more, so none gets into the
    document, although the page itself would have put all of them there. *)
Theorem C10_floating_images_lost_refuted : forall tl wr p q s tpl, settled_page p ->
  restore_page tl wr identity (store_page p) new_page = Some q ->
  flat_map DocxSpec.images_of (DocxModel.d_body (DocxModel.make_pages tpl [docx_page s q])) = [] /\
  flat_map DocxSpec.images_of (DocxModel.d_body (DocxModel.make_pages tpl [docx_page s p])) = seq 0 (List.length (p_floats p)).
Proof.
  intros tl wr p q s tpl H E. destruct (C13_settled_identity tl wr p H) as [R _]. rewrite R in E. injection E as <-.
  assert (G : forall r, all settled (p_blocks r) ->
    flat_map DocxSpec.images_of (DocxModel.d_body (DocxModel.make_pages tpl [docx_page s r])) = seq 0 (List.length (p_floats r))).
  { intros r Hr. rewrite DocxProps.C47_images_conserved.
    - cbn. apply app_nil_r.
    - intros x b [<-|[]] Hb. unfold docx_page in Hb. cbn [DocxModel.p_blocks] in Hb. apply in_map_iff in Hb.
      destruct Hb as ([k y] & <- & Hy). apply in_combine_r in Hy. pose proof (all_In _ _ y Hr Hy) as Sy. cbn [DocxModel.b_type snd].
      destruct y; cbn [settled btype_docx] in *; destruct Sy as [-> _]; discriminate. }
  destruct H as (H1 & H2 & H3). split; [|apply G; exact H1]. rewrite G; [reflexivity|]. cbn [p_blocks]. apply all_app. split; assumption.
Qed.
Print Assumptions C10_floating_images_lost_refuted.
Example C10_floats_nonvacuous : settled_page (ex_page B_LATTICE [ex_float; ex_float]) /\ List.length (p_floats (ex_page B_LATTICE [ex_float; ex_float])) = 2%nat.
Proof. split; [apply C13_nonvacuous_page|reflexivity]. Qed.

(** Finding (C13): a stream table comes back as a lattice table, so [extract_tables] with
    its default settings returns a table that it did not return before. *)
Theorem C13_stream_table_refuted : forall tl wr strip, exists p q, page_storable p /\
  restore_page tl wr identity (store_page p) new_page = Some q /\
  extract_tables strip false p = [] /\ List.length (extract_tables strip false q) = 1%nat.
Proof.
  intros tl wr strip. exists (ex_page B_STREAM []), (c_page (ex_page B_STREAM []) new_page).
  assert (S : page_storable (ex_page B_STREAM [])).
  { assert (Nm : named_line ex_line) by (repeat constructor).
    unfold page_storable, ex_page. cbn [p_blocks p_floats all storable ex_text ex_table ex_nested storable_row storable_cell cell_of empty_cell ex_float]. tauto. }
  split; [exact S|]. split; [apply page_back; exact S|]. split; [reflexivity|].
  unfold extract_tables. rewrite map_length. vm_compute. reflexivity.
Qed.
Print Assumptions C13_stream_table_refuted.
(** Finding (C13): the boxes of a page with a rotation are rotated once more on restore
    (the stored boxes are already rotated). *)
Theorem C13_rotated_page_refuted : forall tl wr, exists p q, settled_page p /\ p_floats p = [] /\
  restore_page tl wr (mkM 0 1 (-1) 0 842 0) (store_page p) new_page = Some q /\ ~ (map block_box (p_blocks q) = map block_box (p_blocks p)).
Proof.
  intros tl wr. exists (ex_page B_LATTICE []). eexists. split; [apply ex_settled; exact I|]. split; [reflexivity|].
  split; [vm_compute; reflexivity|]. vm_compute. discriminate.
Qed.
Print Assumptions C13_rotated_page_refuted.
(** Finding (C13): a stroke that was detected as a thin filled box keeps its centre line
    but not its box: the box is recomputed from the line. *)
Theorem C13_thin_fill_refuted : forall tl wr, exists p q, page_storable p /\
  restore_page tl wr identity (store_page p) new_page = Some q /\ map shape_box (p_shapes q) <> map shape_box (p_shapes p).
Proof.
  intros tl wr. eexists (mkPage (PNum 0) (PNum 9) (PNum 9) PNone [] [] [Stroke (zr 0 0 1000 20) R_BORDER (PNum 0) (0, 1) (100, 1) 2]), _.
  split; [split; exact I|]. split; [vm_compute; reflexivity|]. vm_compute. discriminate.
Qed.
Print Assumptions C13_thin_fill_refuted.

(** C41: image bytes survive storing and restoring, whatever they are. *)
Theorem C41_bytes_round_trip : forall s, b64decode (b64encode s) = Some s.
Proof. exact decode_encode. Qed.
Print Assumptions C41_bytes_round_trip.
(** C41: the stored text consists of base64 characters only, four for every started
    group of three bytes. *)
Theorem C41_stored_text : forall s, Forall base64_char (list_ascii_of_string (b64encode s)) /\
  String.length (b64encode s) = (4 * ((String.length s + 2) / 3))%nat.
Proof. intros s. split; [apply encode_chars|apply encode_length]. Qed.
Print Assumptions C41_stored_text.
(** C41: an image (inline or floating) read back from its stored form has the same bytes,
    format, size and, rounded, the same box. *)
Theorem C41_image_round_trip : forall i, exists d, store_image i = PDict d /\
  new_image identity d = Some (mkImage (rround (i_box i)) (i_ext i) (i_width i) (i_height i) (i_bytes i)).
Proof.
  intros i. eexists. split; [reflexivity|]. unfold new_image, element_box, image_bytes, get. cbn [assoc String.eqb Ascii.eqb Bool.eqb bind as_rect py_rect image_fields].
  rewrite decode_encode. cbn [bind]. f_equal. f_equal. apply rround_same. destruct i as [b]. destruct b. apply rmul_identity.
Qed.
Print Assumptions C41_image_round_trip.
(** C41: an image raw from the pdf is used as it is, and making an inline image of it
    keeps the bytes. *)
Theorem C41_raw_bytes : forall m d s i, assoc "image"%string d = Some (PBytes s) -> new_image m d = Some i -> i_bytes i = s /\ i_bytes (from_image i) = s.
Proof.
  intros m d s i H. unfold new_image, get. rewrite H. cbn [image_bytes bind]. destruct (element_box m d) as [b|]; [|discriminate].
  cbn [bind]. intros E. injection E as <-. split; reflexivity.
Qed.
Print Assumptions C41_raw_bytes.
(** An image of the pdf is wrapped in a text block of one line holding it alone, at its place, with
    its bytes, format and size. *)
Theorem C41_wrapped : forall tl wr n d s b, assoc "type"%string d = Some (PNum 1) -> assoc "image"%string d = Some (PBytes s) ->
  assoc "bbox"%string d = Some (py_rect b) -> proper (rround b) ->
  exists bb a l i, new_block tl wr (S n) identity (PDict d) = Some (Some (TextB B_IMAGE bb a [l])) /\ l_spans l = [ISpan i] /\
    i_bytes i = s /\ i_ext i = get "ext"%string (PStr "png"%string) d /\ i_width i = get "width"%string (PNum 0) d /\ i_height i = get "height"%string (PNum 0) d /\
    req bb (rround b) /\ req (l_box l) (rround b) /\ req (i_box i) (rround b) /\ l_dir l = (1, 0).
Proof.
  intros tl wr n d s b Ht Hi Hb P. cbn [new_block as_dict bind]. unfold get at 1. rewrite Ht. cbv iota. change (qeq 1 (btype_value B_IMAGE)) with true. cbv iota.
  unfold new_image. unfold get at 1. rewrite Hi. cbn [image_bytes bind]. rewrite (box_back d b Hb). cbn [bind].
  set (ext := get "ext"%string (PStr "png"%string) d). set (w := get "width"%string (PNum 0) d). set (h := get "height"%string (PNum 0) d).
  assert (F : forall r, rect_decimal r -> req (rround r) r) by (intros r; apply rround_fixed).
  assert (Z : forall r, proper r -> rect_decimal r -> union_bbox rect0 r = rround r) by (intros r Pr Dr; unfold union_bbox, runion; rewrite (proper_nonempty r Pr); reflexivity).
  set (r0 := rround b) in *. assert (D0 : rect_decimal r0) by apply rround_decimal.
  set (r1 := rround r0). assert (D1 : rect_decimal r1) by apply rround_decimal. assert (E1 : req r1 r0) by (apply F; exact D0). assert (P1 : proper r1) by (apply (GeomProof.proper_req r0); [apply GeomProof.req_sym; exact E1|exact P]).
  set (r2 := rround r1). assert (D2 : rect_decimal r2) by apply rround_decimal. assert (E2 : req r2 r1) by (apply F; exact D1). assert (P2 : proper r2) by (apply (GeomProof.proper_req r1); [apply GeomProof.req_sym; exact E2|exact P1]).
  set (r3 := rround r2). assert (E3 : req r3 r2) by (apply F; exact D2).
  exists r3, default_attrs, (mkLine r2 (PNum 0) (1, 0) (PNum 0) [ISpan (mkImage r1 ext w h s)]), (mkImage r1 ext w h s).
  split.
  - unfold to_text_block, from_image. cbn [i_box i_ext i_width i_height i_bytes]. fold r1. cbn [kept filter span_box i_box]. rewrite (GeomProof.proper_truthy r1 P1).
    unfold grown. cbn [fold_left span_box i_box]. rewrite (Z r1 P1 D1). fold r2. unfold text_block, kept. cbn [filter l_box]. rewrite (GeomProof.proper_truthy r2 P2).
    unfold grown. cbn [fold_left l_box]. rewrite (Z r2 P2 D2). reflexivity.
  - cbn [l_spans i_bytes i_ext i_width i_height l_box i_box l_dir].
    assert (T : forall a b c, req a b -> req b c -> req a c) by (unfold req; intros ? ? ? (? & ? & ? & ?) (? & ? & ? & ?); repeat split; etransitivity; eassumption).
    repeat (split; [reflexivity|]). split; [exact (T _ _ _ E3 (T _ _ _ E2 E1))|]. split; [exact (T _ _ _ E2 E1)|]. split; [exact E1|reflexivity].
Qed.
Print Assumptions C41_wrapped.
Example C41_nonvacuous : b64encode (String "255"%char (String "000"%char (String "010"%char (String "061"%char EmptyString)))) = "/wAKPQ=="%string /\
  b64decode "/wAKPQ=="%string = Some (String "255"%char (String "000"%char (String "010"%char (String "061"%char EmptyString)))).
Proof. split; vm_compute; reflexivity. Qed.
