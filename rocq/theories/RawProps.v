(** Raw contents of a page (C61). *)
From Verif Require Import RawSpec RawProof GraphSpec GraphProof.
From Verif Require Rect TableModel TableProof PathSpec GeomProof AssignProof StoreModel.
From Coq Require Import List Lia Lqa Permutation Relations.
Open Scope nat_scope.

(** C61: the result of matching the images of the page with the extracted ones, completely:
    the blocks of the page in their order and places, followed by the extracted images that
    are at no place of an image of the page; text blocks are untouched; an image of the page gets the
    bytes of the last extracted image taken for its contents, and is deleted if there is none. *)
Theorem C61_images_matched : forall (hash : string -> Z) bs rs,
  exists out tl, preprocess_images hash rs bs = out ++ tl /\ length out = length bs /\
    (forall k b, nth_error bs k = Some b -> exists b', nth_error out k = Some b' /\
       rb_box b' = rb_box b /\ rb_rest b' = rb_rest b /\
       (rb_type b <> 1%Z -> b' = b) /\
       (rb_type b = 1%Z ->
          ((forall r, In r rs -> ~ taken_for hash bs r (hash (rb_bytes b))) /\ rb_type b' = (-1)%Z) \/
          (exists p r q, rs = p ++ r :: q /\ taken_for hash bs r (hash (rb_bytes b)) /\
             (forall r', In r' q -> ~ taken_for hash bs r' (hash (rb_bytes b))) /\
             rb_type b' = 1%Z /\ rb_bytes b' = rb_bytes r))) /\
    (forall f, (forall r, In r rs -> f r = true <-> forall h, ~ shows_at hash bs h r) -> tl = filter f rs).
Proof.
  intros hash bs rs. unfold preprocess_images. pose proof (good_all hash bs) as G.
  assert (D : map rb_box (deleted bs) = map rb_box bs).
  { unfold deleted. rewrite map_map. apply map_ext. intros b. destruct (is_image b); reflexivity. }
  destruct (loop_spec hash bs _ G rs (deleted bs) [] D) as (out & tl & E1 & E2 & E3 & E4 & E5). rewrite app_nil_r in E1. cbn [app] in E1.
  exists out, tl. split; [exact E1|]. split; [rewrite <- (map_length rb_box out), E2, map_length; reflexivity|]. split; [|exact E5].
  intros k b Hb. assert (H0 : nth_error (deleted bs) k = Some (if is_image b then set_type (-1) b else b)).
  { unfold deleted. apply (map_nth_error (fun b => if is_image b then set_type (-1) b else b)). exact Hb. }
  destruct (E3 k b _ Hb H0) as (b' & Hb' & O). exists b'. split; [exact Hb'|].
  destruct O as [(T & ->)|[(T & No & ->)|(T & p & r & q & Er & Tk & No & ->)]].
  - destruct (is_image b) eqn:I; [apply is_image_iff in I; contradiction|]. repeat split; try reflexivity. intros X; contradiction.
  - rewrite (proj2 (is_image_iff b) T). cbn. repeat split; try reflexivity; [intros X; contradiction|]. intros _. left. auto.
  - rewrite (proj2 (is_image_iff b) T). cbn. repeat split; try reflexivity; [intros X; contradiction|]. intros _. right. exists p, r, q. auto.
Qed.
Print Assumptions C61_images_matched.

(** C61: nothing is missing: for every extracted image the result has an image at its place. *)
Theorem C61_every_place_shown : forall (hash : string -> Z) bs rs r, In r rs -> rb_type r = 1%Z ->
  exists b, In b (preprocess_images hash rs bs) /\ rb_type b = 1%Z /\ at_place b r.
Proof.
  intros hash bs rs r Hr Tr. destruct (C61_images_matched hash bs rs) as (out & tl & E & L & K & Tl). rewrite E.
  assert (F : map rb_box bs = map rb_box bs) by reflexivity.
  pose proof (find_taken hash bs bs _ r (ex_intro _ bs (ex_intro _ [] (conj (eq_sym (app_nil_r bs)) F))) (good_all hash bs)) as T.
  destruct (find _ _) as [(h, l)|] eqn:Fd.
  - destruct T as [_ Tk]. destruct Tk as [(k & b & (b2 & Hb2 & Ty & Hh) & Hb & At) Fst]. rewrite Hb in Hb2. injection Hb2 as <-.
    destruct (K k b Hb) as (b' & Hb' & Bx & _ & _ & Im). exists b'. split; [apply in_or_app; left; apply (nth_error_In out k Hb')|].
    assert (Pl : at_place b' r) by (unfold at_place in *; rewrite Bx; exact At).
    destruct (Im Ty) as [[No _]|(p & r' & q & _ & _ & _ & Ty' & _)]; [|auto].
    exfalso. apply (No r Hr). rewrite Hh. split; [exists k, b; split; [exists b; auto|auto]|exact Fst].
  - exists r. split; [|split; [exact Tr|unfold at_place; auto]]. apply in_or_app. right.
    set (f := fun x => match find (fun g => same_images x bs (snd g)) (groups_from hash 0 bs []) with Some _ => false | None => true end).
    rewrite (Tl f).
    + apply filter_In. split; [exact Hr|]. unfold f. rewrite Fd. reflexivity.
    + intros x _. pose proof (find_taken hash bs bs _ x (ex_intro _ bs (ex_intro _ [] (conj (eq_sym (app_nil_r bs)) F))) (good_all hash bs)) as T'.
      unfold f. destruct (find (fun g => same_images x bs (snd g)) (groups_from hash 0 bs [])) as [(h, l)|]; [|split; [intros _; exact T'|reflexivity]]. split; [discriminate|]. intros X. destruct T' as [_ [W _]]. destruct (X h W).
Qed.
Print Assumptions C61_every_place_shown.

(** C61: if images at one place have the same contents, and at most one extracted image is at
    the places of any contents, then every image of the page with these contents gets exactly
    these bytes, wherever it is; and one whose contents is at no such place is deleted. *)
Theorem C61_right_bytes : forall (hash : string -> Z) bs rs,
  (forall h h' r, In r rs -> shows_at hash bs h r -> shows_at hash bs h' r -> h = h') ->
  (forall h r r', In r rs -> In r' rs -> shows_at hash bs h r -> shows_at hash bs h r' -> r = r') ->
  forall k b, nth_error bs k = Some b -> rb_type b = 1%Z ->
  exists b', nth_error (preprocess_images hash rs bs) k = Some b' /\ rb_box b' = rb_box b /\
    (forall r, In r rs -> shows_at hash bs (hash (rb_bytes b)) r -> rb_type b' = 1%Z /\ rb_bytes b' = rb_bytes r) /\
    ((forall r, In r rs -> ~ shows_at hash bs (hash (rb_bytes b)) r) -> rb_type b' = (-1)%Z).
Proof.
  intros hash bs rs One Single k b Hb Ty. destruct (C61_images_matched hash bs rs) as (out & tl & E & L & K & _).
  destruct (K k b Hb) as (b' & Hb' & Bx & _ & _ & Im). exists b'.
  split; [rewrite E, nth_error_app1; [exact Hb'|rewrite L; apply nth_error_Some; congruence]|]. split; [exact Bx|].
  destruct (Im Ty) as [[No T']|(p & r' & q & Er & Tk & _ & T' & By)].
  - split; [|auto]. intros r Hr Sh. exfalso. apply (No r Hr). split; [exact Sh|]. intros h' Sh' Ne. destruct Ne. symmetry. apply (One _ _ r Hr Sh Sh').
  - assert (Hr' : In r' rs) by (rewrite Er; apply in_or_app; right; left; reflexivity). split.
    + intros r Hr Sh. split; [exact T'|]. rewrite By. f_equal. destruct Tk as [Sh' _]. apply (Single _ r' r Hr' Hr Sh' Sh).
    + intros No. destruct Tk as [Sh' _]. destruct (No r' Hr' Sh').
Qed.
Print Assumptions C61_right_bytes.

(** C61 finding: of two different pictures at one place (a picture covered by another) the lower
    one gets the bytes of the upper one, and the upper one is deleted: the bytes of the
    lower one are nowhere in the result. *)
Definition pic (s : string) (x : Z) : rblock := mkRB 1 (mkRect (inject_Z x) 0 (inject_Z (x + 10)) 10) s "".
Theorem C61_covered_picture_refuted : forall hash : string -> Z, hash "lower"%string <> hash "upper"%string ->
  let bs := [pic "lower" 0; pic "upper" 0] in
  ~ In "lower"%string (map rb_bytes (filter is_image (preprocess_images hash bs bs))) /\
  map rb_type (preprocess_images hash bs bs) = [1%Z; (-1)%Z].
Proof.
  intros hash N. cbv zeta. unfold preprocess_images. cbn [groups_from is_image pic rb_type rb_bytes Z.eqb Pos.eqb add_group].
  assert (Y : (hash "upper"%string =? hash "lower"%string)%Z = false) by (apply Z.eqb_neq; congruence). rewrite Y.
  cbn [match_images find snd]. 
  match goal with |- context [same_images ?r ?b ?l] => replace (same_images r b l) with true by (vm_compute; reflexivity) end.
  cbn [fold_left snd deleted map is_image pic rb_type rb_bytes Z.eqb Pos.eqb update_at].
  match goal with |- context [same_images ?r ?b ?l] => replace (same_images r b l) with true by (vm_compute; reflexivity) end.
  cbn. split; [|reflexivity]. intros [X|[]]; discriminate.
Qed.
Print Assumptions C61_covered_picture_refuted.

(** C61: a deleted image does not come back: no block is made of it. *)
Theorem C61_deleted_not_restored : forall tl wr n m d, StoreModel.get "type" (StoreModel.PNum (-1)) d = StoreModel.PNum (-1) ->
  StoreModel.new_block tl wr (S n) m (StoreModel.PDict d) = Some None.
Proof. intros tl wr n m d E. cbn [StoreModel.new_block StoreModel.as_dict StoreModel.bind]. rewrite E. reflexivity. Qed.
Print Assumptions C61_deleted_not_restored.

(** C61: every picture of the page resources that has a place on the page is extracted, in order,
    with its own bytes; only a picture without colours is cut out of the rendered page. *)
Theorem C61_extracted : forall page clip items,
  exists its, Forall2 (fun i r => exists b, it_box i = Some b /\ rintersects b page = true /\ rb_type r = 1%Z /\ rb_box r = b /\
                (px_color (it_pix i) = true -> rb_bytes r = px_png (it_pix i)) /\
                (px_color (it_pix i) = false -> rb_bytes r = px_png (clip (rinter b page)))) its (extract_images page clip items) /\
    its = filter (fun i => match it_box i with Some b => rintersects b page | None => false end) items.
Proof.
  intros page clip items. eexists. split; [|reflexivity]. induction items as [|i t IH]; cbn [extract_images filter]; [constructor|].
  destruct (it_box i) as [b|] eqn:E; [|exact IH]. destruct (rintersects b page) eqn:I; cbn [negb]; [|exact IH]. constructor; [|exact IH].
  exists b. split; [exact E|]. split; [exact I|]. split; [reflexivity|]. split; [reflexivity|]. split; intros C; rewrite C; reflexivity.
Qed.
Print Assumptions C61_extracted.

(** C61: only links to internet addresses are taken over, all of them, in order, with area and
    address. *)
Theorem C61_links : forall ls, preprocess_hyperlinks ls = map (fun l => (lk_from l, lk_uri l)) (filter (fun l => Z.eqb (lk_kind l) 2) ls).
Proof. induction ls as [|l t IH]; [reflexivity|]. cbn [preprocess_hyperlinks filter]. destruct (lk_kind l =? 2)%Z; cbn [negb map]; rewrite IH; reflexivity. Qed.
Print Assumptions C61_links.
Theorem C61_links_iff : forall ls r u, In (r, u) (preprocess_hyperlinks ls) <-> exists l, In l ls /\ lk_kind l = 2%Z /\ lk_from l = r /\ lk_uri l = u.
Proof.
  intros ls r u. rewrite C61_links, in_map_iff. split.
  - intros (l & E & H). apply filter_In in H. destruct H as [H K]. injection E as <- <-. exists l. apply Z.eqb_eq in K. auto.
  - intros (l & H & K & <- & <-). exists l. split; [reflexivity|]. apply filter_In. split; [exact H|]. apply Z.eqb_eq. exact K.
Qed.
Print Assumptions C61_links_iff.

(** C61: vector graphics: every contour found is in exactly one picture, whose box is exactly
    the box around its contours and whose bytes are the page rendered in that box; contours that touch
    are in one picture. *)
Definition contour_rect (c : Z * Z * Z * Z) : rect := match c with (x, y, w, h) => mkRect (inject_Z x) (inject_Z y) (inject_Z (x + w)) (inject_Z (y + h)) end.
Lemma int_round z : (round1 (inject_Z z) == inject_Z z)%Q.
Proof. unfold round1. apply round_p_fixed. exists (z * 10)%Z. unfold Qdiv, inject_Z, Qeq. cbn. lia. Qed.
Definition within (big small : rect) : Prop := (rx0 big <= rx0 small /\ ry0 big <= ry0 small /\ rx1 small <= rx1 big /\ ry1 small <= ry1 big)%Q.
Theorem C61_graphics : forall order clip cs, (forall l, Permutation l (order l)) ->
  (forall x y w h, In (x, y, w, h) cs -> (0 <= x)%Z /\ (0 <= y)%Z /\ (0 < w)%Z /\ (0 < h)%Z) ->
  exists gs imgs, vector_images order clip cs = Some imgs /\
    NoDup (concat gs) /\ (forall i, i < length cs <-> In i (concat gs)) /\
    Forall2 (fun g im => g <> [] /\ rb_type im = 1%Z /\ rb_bytes im = px_png (clip (rb_box im)) /\
       (forall i c, In i g -> nth_error cs i = Some c -> within (rb_box im) (contour_rect c)) /\
       (forall big, (forall i c, In i g -> nth_error cs i = Some c -> within big (contour_rect c)) -> within big (rb_box im))) gs imgs /\
    (forall g i j a b, In g gs -> In i g -> nth_error cs i = Some a -> nth_error cs j = Some b ->
       (exists px py, pin px py (contour_rect a) /\ pin px py (contour_rect b)) -> In j g).
Proof.
  intros order clip cs Ho Pos. unfold vector_images.
  set (bx := fun c : Z * Z * Z * Z => rround (contour_rect c)).
  assert (Rq : forall c, req (bx c) (contour_rect c)).
  { intros [[[x y] w] h]. unfold req, bx, contour_rect, rround. cbn [rx0 ry0 rx1 ry1]. repeat split; apply int_round. }
  assert (Pr : forall c, In c cs -> proper (bx c)).
  { intros c Hc. destruct (Rq c) as (A1 & A2 & A3 & A4). unfold proper. rewrite A1, A2, A3, A4. destruct c as [[[x y] w] h]. destruct (Pos x y w h Hc) as (_ & _ & ? & ?).
    unfold contour_rect. cbn [rx0 ry0 rx1 ry1]. rewrite <- !Zlt_Qlt. lia. }
  assert (Cb : contour_boxes cs = map bx cs).
  { unfold contour_boxes. rewrite (map_ext _ bx) by (intros [[[x y] w] h]; reflexivity). 
    clear - Pr. induction cs as [|c t IH]; [reflexivity|]. cbn [map filter]. rewrite (GeomProof.proper_truthy (bx c)) by (apply Pr; left; reflexivity).
    f_equal. apply IH. intros; apply Pr; right; assumption. }
  rewrite Cb. destruct (group_indexes_spec (fun a b => rect_bool (rinter a b)) order Ho (map bx cs)) as (gs & E & Nd & All & Ne & Ch).
  unfold GraphModel.group. rewrite E. exists gs. eexists. split; [reflexivity|]. split; [exact Nd|]. rewrite map_length in All. split; [exact All|].
  assert (Lk : forall i c, nth_error cs i = Some c -> nth_error (map bx cs) i = Some (bx c)) by (intros i c H; apply map_nth_error; exact H).
  assert (InGs : forall g i, In g gs -> In i g -> i < length cs).
  { intros g i Hg Hi. apply All. apply in_concat. exists g. auto. }
  split.
  - unfold clip_groups. rewrite map_map. clear E Ch.
    assert (X : forall l, (forall g, In g l -> In g gs) -> Forall2 (fun g im => g <> [] /\ rb_type im = 1%Z /\ rb_bytes im = px_png (clip (rb_box im)) /\
       (forall i c, In i g -> nth_error cs i = Some c -> within (rb_box im) (contour_rect c)) /\
       (forall big, (forall i c, In i g -> nth_error cs i = Some c -> within big (contour_rect c)) -> within big (rb_box im))) l
       (map (fun g => let b := rround (fold_left runion (flat_map (GraphModel.item_at (map bx cs)) g) rect0) in to_raw (clip b) b) l)).
    { induction l as [|g l IH]; intros Sub; cbn [map]; [constructor|]. constructor; [|apply IH; intros; apply Sub; right; assumption].
      assert (Hg : In g gs) by (apply Sub; left; reflexivity). cbv zeta. cbn [to_raw rb_type rb_bytes rb_box].
      split; [apply Ne; exact Hg|]. split; [reflexivity|]. split; [reflexivity|].
      set (L := flat_map (GraphModel.item_at (map bx cs)) g).
      assert (LI : forall e, In e L <-> exists i c, In i g /\ nth_error cs i = Some c /\ e = bx c).
      { intros e. unfold L. rewrite in_flat_map. split.
        - intros (i & Hi & He). unfold GraphModel.item_at in He. destruct (nth_error (map bx cs) i) as [e'|] eqn:En; [|destruct He]. destruct He as [<-|[]].
          rewrite nth_error_map in En. destruct (nth_error cs i) as [c|] eqn:Ec; [|discriminate]. injection En as <-. exists i, c. auto.
        - intros (i & c & Hi & Hc & ->). exists i. split; [exact Hi|]. unfold GraphModel.item_at. rewrite (Lk i c Hc). left. reflexivity. }
      assert (LP : forall e, In e L -> proper e /\ rect_decimal e).
      { intros e He. apply LI in He. destruct He as (i & c & Hi & Hc & ->). split; [apply Pr; apply (nth_error_In cs i Hc)|apply Rect.rround_decimal]. }
      assert (LN : L <> []).
      { destruct g as [|i g]; [destruct (Ne [] Hg eq_refl)|]. pose proof (InGs _ i Hg (or_introl eq_refl)) as Hi.
        destruct (nth_error cs i) as [c|] eqn:Ec; [|apply nth_error_None in Ec; lia].
        intros Z. assert (W : In (bx c) L) by (apply LI; exists i, c; split; [left; reflexivity|auto]). rewrite Z in W. destruct W. }
      destruct (TableProof.boxes_cover L LN LP) as (_ & _ & C1 & C2). cbv zeta in C1, C2.
      change (rround (fold_left runion L rect0)) with (TableModel.boxes_bbox L). split.
      - intros i c Hi Hc. destruct (C1 (bx c)) as (D1 & D2 & D3 & D4); [apply LI; exists i, c; auto|]. destruct (Rq c) as (Q1 & Q2 & Q3 & Q4). unfold within. repeat split; lra.
      - intros big Hb. assert (W : Rect.covers big (TableModel.boxes_bbox L)).
        { apply C2. intros e He. apply LI in He. destruct He as (i & c & Hi & Hc & ->). destruct (Hb i c Hi Hc) as (D1 & D2 & D3 & D4). destruct (Rq c) as (Q1 & Q2 & Q3 & Q4). unfold Rect.covers. repeat split; lra. }
        exact W. }
    apply X. auto.
  - intros g i j a b Hg Hi Ha Hb (px & py & (Pa1 & Pa2) & (Pb1 & Pb2)). apply (Ch g i j Hg Hi).
    destruct (Nat.eq_dec i j) as [->|Nij]; [apply rt_refl|]. apply rt_step.
    assert (T : forall c d, In c cs -> In d cs -> pin px py (contour_rect c) -> pin px py (contour_rect d) -> rect_bool (rinter (bx c) (bx d)) = true).
    { intros c d Hc Hd (X1 & X2) (Y1 & Y2). pose proof (Pr c Hc) as Pc. pose proof (Pr d Hd) as Pd.
      unfold rinter. rewrite (Rect.proper_nonempty _ Pc), (Rect.proper_nonempty _ Pd).
      destruct (Rq c) as (Q1 & Q2 & Q3 & Q4), (Rq d) as (R1 & R2 & R3 & R4).
      assert (Zc : (0 <= rx0 (bx c) /\ 0 <= ry0 (bx c))%Q).
      { rewrite Q1, Q2. destruct c as [[[x y] w] h]. destruct (Pos x y w h Hc) as (? & ? & _). cbn [contour_rect rx0 ry0]. change 0%Q with (inject_Z 0). rewrite <- !Zle_Qle. auto. }
      assert (Zd : (0 <= rx0 (bx d) /\ 0 <= ry0 (bx d))%Q).
      { rewrite R1, R2. destruct d as [[[x y] w] h]. destruct (Pos x y w h Hd) as (? & ? & _). cbn [contour_rect rx0 ry0]. change 0%Q with (inject_Z 0). rewrite <- !Zle_Qle. auto. }
      destruct Pc as [Pc1 Pc2], Pd as [Pd1 Pd2].
      assert (A1 : qlt (qmin (rx1 (bx c)) (rx1 (bx d))) (qmax (rx0 (bx c)) (rx0 (bx d))) = false).
      { unfold qmin, qmax. qcases; auto; exfalso; lra. }
      assert (A2 : qlt (qmin (ry1 (bx c)) (ry1 (bx d))) (qmax (ry0 (bx c)) (ry0 (bx d))) = false).
      { unfold qmin, qmax. qcases; auto; exfalso; lra. }
      rewrite A1, A2. cbn [orb]. unfold rect_bool. cbn [rx0 ry0 rx1 ry1].
      assert (A3 : qeq (qmin (rx1 (bx c)) (rx1 (bx d))) 0 = false).
      { unfold qmin. qcases; auto; exfalso; lra. }
      rewrite A3, !andb_false_r. reflexivity. }
    unfold pair_holds. destruct (Nat.lt_ge_cases i j) as [Hl|Hl]; [left|right].
    + split; [exact Hl|]. exists (bx a), (bx b). split; [apply Lk; exact Ha|]. split; [apply Lk; exact Hb|]. apply T; unfold pin; auto; eapply nth_error_In; eassumption.
    + split; [lia|]. exists (bx b), (bx a). split; [apply Lk; exact Hb|]. split; [apply Lk; exact Ha|]. apply T; unfold pin; auto; eapply nth_error_In; eassumption.
Qed.
Print Assumptions C61_graphics.

(** Non-trivial cases: a page with text, a picture shown twice, another one without a counterpart; an
    extracted image that is on no place of the page. *)
Definition ex_hash (s : string) : Z := Z.of_nat (String.length s).
Definition ex_bs : list rblock := [mkRB 0 (mkRect 0 50 20 60) "" "text"; pic "logo" 0; pic "photo!" 30; pic "logo" 60].
Definition ex_rs : list rblock := [pic "LOGO" 0; pic "OUTSIDE" 200].
Example C61_ex_run : preprocess_images ex_hash ex_rs ex_bs =
  [mkRB 0 (mkRect 0 50 20 60) "" "text"; pic "LOGO" 0; set_type (-1) (pic "photo!" 30); pic "LOGO" 60; pic "OUTSIDE" 200].
Proof. vm_compute. reflexivity. Qed.
Lemma ex_shows h r : shows_at ex_hash ex_bs h r -> (h = 4%Z /\ (at_place (pic "logo" 0) r \/ at_place (pic "logo" 60) r)) \/ (h = 6%Z /\ at_place (pic "photo!" 30) r).
Proof.
  intros (k & b & (b2 & E2 & T & Hh) & E & At). rewrite E in E2. injection E2 as <-.
  destruct k as [|[|[|[|k]]]]; cbn in E.
  - injection E as <-. cbn in T. discriminate.
  - injection E as <-. left. split; [cbn in Hh; auto|auto].
  - injection E as <-. right. split; [cbn in Hh; auto|auto].
  - injection E as <-. left. split; [cbn in Hh; auto|auto].
  - destruct k; discriminate.
Qed.
Example C61_ex_hypotheses :
  (forall h h' r, In r ex_rs -> shows_at ex_hash ex_bs h r -> shows_at ex_hash ex_bs h' r -> h = h') /\
  (forall h r r', In r ex_rs -> In r' ex_rs -> shows_at ex_hash ex_bs h r -> shows_at ex_hash ex_bs h r' -> r = r') /\
  shows_at ex_hash ex_bs 4%Z (pic "LOGO" 0).
Proof.
  assert (D : forall a b, In a [pic "logo" 60; pic "photo!" 30] -> In b ex_rs -> ~ at_place a b).
  { intros a b [<-|[<-|[]]] [<-|[<-|[]]] At; apply same_place_iff in At; vm_compute in At; discriminate. }
  assert (D2 : ~ at_place (pic "logo" 0) (pic "OUTSIDE" 200)) by (intros At; apply same_place_iff in At; vm_compute in At; discriminate).
  assert (K : forall h r, In r ex_rs -> shows_at ex_hash ex_bs h r -> h = 4%Z /\ r = pic "LOGO" 0).
  { intros h r Hr Sh. destruct (ex_shows h r Sh) as [(-> & [A|A])|(-> & A)].
    - split; [reflexivity|]. destruct Hr as [<-|[<-|[]]]; [reflexivity|destruct (D2 A)].
    - destruct (D _ _ (or_introl eq_refl) Hr A).
    - destruct (D _ _ (or_intror (or_introl eq_refl)) Hr A). }
  split; [|split].
  - intros h h' r Hr A B. destruct (K h r Hr A), (K h' r Hr B). congruence.
  - intros h r r' Hr Hr' A B. destruct (K h r Hr A), (K h r' Hr' B). congruence.
  - exists 1, (pic "logo" 0). split; [exists (pic "logo" 0); auto|]. split; [reflexivity|]. unfold at_place. auto.
Qed.
Example C61_ex_graphics : exists imgs, vector_images (fun l => l) (fun _ => mkPix true "png" "") [(0, 0, 5, 5); (20, 20, 4, 4); (5, 5, 3, 1)]%Z = Some imgs /\
  map (fun b => map round_half_even (rcoords (rb_box b))) imgs = [[0; 0; 8; 6]; [20; 20; 24; 24]]%Z.
Proof. eexists. split; vm_compute; reflexivity. Qed.
