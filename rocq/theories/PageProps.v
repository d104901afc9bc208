(** C35 (margins) and C36 (settings). *)
From Verif Require Import GeomModel GeomSpec GeomProof PageModel PageSpec PageProof.
From Coq Require Import Lia.
Open Scope Q_scope.

(* ------------------------------------------------------------------ *)
(** * C35 *)
(** An empty page has Word's default margin, one inch, on each side. *)
Theorem C35_empty_page w h ft fb : cal_margin [] [] w h ft fb = mkMargin 72 72 72 72.
Proof. reflexivity. Qed.
Print Assumptions C35_empty_page.
(** Each margin lies between 0 and one inch, whatever the content. *)
Theorem C35_margin_range blocks shapes w h ft fb : 0 <= ft -> 0 <= fb ->
  let m := cal_margin blocks shapes w h ft fb in
  (0 <= m_left m <= 72) /\ (0 <= m_right m <= 72) /\ (0 <= m_top m <= 72) /\ (0 <= m_bottom m <= 72).
Proof. apply margin_range. Qed.
Print Assumptions C35_margin_range.
(** Content inside the page is never cut by the margins: the left, right and top
    margins are at most the distance of every (non-degenerate) element to that page
    edge; the bottom one exceeds it by at most half a unit of the rounding. *)
Theorem C35_content_is_inside blocks shapes w h ft fb e : 0 <= ft <= 1 -> 0 <= fb <= 1 ->
  (forall x, In x (blocks ++ shapes) -> normal_box (e_bbox x)) ->
  (forall x, In x (blocks ++ shapes) -> proper (e_bbox x) -> inside_page w h x) ->
  In e (blocks ++ shapes) -> proper (e_bbox e) ->
  let m := cal_margin blocks shapes w h ft fb in
  m_left m <= rx0 (e_bbox e) /\ m_right m <= w - rx1 (e_bbox e) /\ m_top m <= ry0 (e_bbox e) /\
  m_bottom m <= h - ry1 (e_bbox e) + (1 # 20).
Proof. apply margin_content. Qed.
Print Assumptions C35_content_is_inside.
(** So the working area is a real box containing the content up to 0.05pt. *)
Theorem C35_working_area blocks shapes w h ft fb e : 0 <= ft <= 1 -> 0 <= fb <= 1 ->
  (forall x, In x (blocks ++ shapes) -> normal_box (e_bbox x)) ->
  (forall x, In x (blocks ++ shapes) -> proper (e_bbox x) -> inside_page w h x) ->
  In e (blocks ++ shapes) -> proper (e_bbox e) ->
  let b := working_bbox w h (cal_margin blocks shapes w h ft fb) in
  proper b /\ rx0 b <= rx0 (e_bbox e) /\ rx1 (e_bbox e) <= rx1 b /\ ry0 b <= ry0 (e_bbox e) /\
  ry1 (e_bbox e) <= ry1 b + (1 # 20).
Proof.
  intros Ht Hb Hn Hi He Pe. cbv zeta. destruct (margin_content blocks shapes w h ft fb e Ht Hb Hn Hi He Pe) as (A & B & C & D).
  destruct (Hn e He) as [_ (D0 & D1 & D2 & D3)]. destruct Pe as [P1 P2].
  pose proof (decimal_gap _ _ D0 D2 P1). pose proof (decimal_gap _ _ D1 D3 P2).
  unfold working_bbox, proper. cbn [rx0 ry0 rx1 ry1]. repeat split; lra.
Qed.
Print Assumptions C35_working_area.
(** With factor f the top margin leaves (1-f) of the free space above the content:
    it is f times the distance of the topmost edge, rounded to 0.1pt, unless that
    exceeds one inch. *)
Theorem C35_top_factor blocks shapes w h ft fb : blocks ++ shapes <> [] ->
  let y := ry0 (runion (coll_bbox blocks) (coll_bbox shapes)) in 0 <= y -> 0 <= ft ->
  let m := m_top (cal_margin blocks shapes w h ft fb) in
  (m == 72 /\ 72 <= y * ft + (1 # 20)) \/ (- (1 # 20) <= m - y * ft <= 1 # 20).
Proof.
  intros N y Hy Hf. cbv zeta. rewrite cal_margin_eq by exact N. cbn [m_top]. fold y.
  assert (E : qmax (y - 0) 0 * ft == y * ft) by (unfold qmax; destruct (qlt_spec (y - 0) 0); nra).
  pose proof (round1_bound (qmax (y - 0) 0 * ft)) as B.
  unfold qmin, ITP. destruct (qlt_spec (round1 (qmax (y - 0) 0 * ft)) 72) as [H|H].
  - right. lra.
  - left. split; [reflexivity|]. lra.
Qed.
Print Assumptions C35_top_factor.

(** Refuted: "the bottom margin never exceeds the free space".  Content ending at 0.1
    above a page edge at 791.95 (page sizes are not rounded). *)
Theorem C35_bottom_exact_refuted :
  exists blocks w h, (forall x, In x blocks -> normal_box (e_bbox x) /\ proper (e_bbox x) /\ inside_page w h x) /\
    exists e, In e blocks /\ h - ry1 (e_bbox e) < m_bottom (cal_margin blocks [] w h 1 1).
Proof.
  exists [mkElem 0 (mkRect 10 10 100 100) LEFT_RIGHT], 612, (10006 # 100). split.
  - intros x [<-|[]]. repeat split; unfold valid, rect_decimal, proper, inside_page, covers; cbn;
      try lra; try (exists 100%Z; reflexivity); try (exists 1000%Z; reflexivity).
  - exists (mkElem 0 (mkRect 10 10 100 100) LEFT_RIGHT). split; [left; reflexivity|vm_compute; reflexivity].
Qed.
Print Assumptions C35_bottom_exact_refuted.
(** Refuted: a factor outside [0,1] is not clipped: a negative one gives a negative margin. *)
Theorem C35_negative_factor_refuted :
  exists blocks w h, m_top (cal_margin blocks [] w h (-1) (1 # 2)) < 0.
Proof. exists [mkElem 0 (mkRect 10 10 100 100) LEFT_RIGHT], 612, 792. vm_compute. reflexivity. Qed.
Print Assumptions C35_negative_factor_refuted.

Example C35_ex : let e := mkElem 0 (mkRect 50 40 500 700) LEFT_RIGHT in
  cal_margin [e] [] 612 792 (1 # 2) (1 # 2) = mkMargin 50 72 20 46 \/
  (m_left (cal_margin [e] [] 612 792 (1 # 2) (1 # 2)) == 50 /\ m_right (cal_margin [e] [] 612 792 (1 # 2) (1 # 2)) == 72 /\
   m_top (cal_margin [e] [] 612 792 (1 # 2) (1 # 2)) == 20 /\ m_bottom (cal_margin [e] [] 612 792 (1 # 2) (1 # 2)) == 46).
Proof. right. vm_compute. auto. Qed.
Example C35_ex_hyp : let e := mkElem 0 (mkRect 50 40 500 700) LEFT_RIGHT in normal_box (e_bbox e) /\ proper (e_bbox e) /\ inside_page 612 792 e.
Proof.
  repeat split; unfold valid, rect_decimal, proper, inside_page, covers; cbn; try lra;
    [exists 500%Z|exists 400%Z|exists 5000%Z|exists 7000%Z]; reflexivity.
Qed.

(* ------------------------------------------------------------------ *)
(** * C36 *)
(** For every key, the user's value if given, otherwise the default. *)
Theorem C36_override s k : NoDup (map fst (given s)) ->
  dget (init_settings s) k = match dget (given s) k with Some v => Some v | None => dget default_settings k end.
Proof. apply init_settings_spec. Qed.
Print Assumptions C36_override.
(** The defaults are the documented ones. *)
Theorem C36_documented_defaults k v : In (k, v) documented -> dget default_settings k = Some v.
Proof.
  unfold documented. intros H. cbn in H. decompose [or] H; try contradiction; match goal with E : (_, _) = (k, v) |- _ => inversion E; reflexivity end.
Qed.
Print Assumptions C36_documented_defaults.
(** Every documented parameter not given by the user has its documented value. *)
Theorem C36_documented_value s k v : NoDup (map fst (given s)) -> In (k, v) documented -> dget (given s) k = None ->
  dget (init_settings s) k = Some v.
Proof. intros N H G. rewrite init_settings_spec, G by exact N. apply C36_documented_defaults. exact H. Qed.
Print Assumptions C36_documented_value.
(** Unknown keys are kept and change no other key. *)
Theorem C36_unknown_keys s k v k' : NoDup (map fst s) -> dget s k = None -> dget default_settings k = None -> k' <> k ->
  dget (init_settings (Some ((k, v) :: s))) k' = dget (init_settings (Some s)) k' /\
  dget (init_settings (Some ((k, v) :: s))) k = Some v.
Proof.
  intros N G _ Hk.
  assert (Hn : ~ In k (map fst s)).
  { clear - G. induction s as [|[a b] t IH]; [intros []|]. cbn in *. destruct (String.eqb_spec k a) as [M|M]; [discriminate|].
    intros [E|E]; [congruence|]. exact (IH G E). }
  assert (N' : NoDup (map fst (given (Some ((k, v) :: s))))) by (cbn; constructor; assumption).
  rewrite !init_settings_spec by assumption. cbn [given dget]. rewrite String.eqb_refl.
  destruct (String.eqb_spec k' k) as [E|_]; [contradiction|]. split; reflexivity.
Qed.
Print Assumptions C36_unknown_keys.
(** After any history of calls, a page has the settings of the last call that selected
    it (as if it were the only call), and the defaults if none did: earlier calls with
    other settings leave no trace. *)
Theorem C36_no_history n calls i : (i < n)%nat ->
  nth_error (parse_calls (new_pages n) calls) i =
  Some (match last_selecting i calls with Some s => init_settings s | None => init_settings None end).
Proof. apply settings_of_page. Qed.
Print Assumptions C36_no_history.
Theorem C36_history_independent n h1 h2 c i : (i < n)%nat -> selects i c = true ->
  nth_error (parse_calls (new_pages n) (h1 ++ [c])) i = nth_error (parse_calls (new_pages n) (h2 ++ [c])) i.
Proof.
  intros H S. rewrite !settings_of_page by exact H.
  assert (L : forall h, last_selecting i (h ++ [c]) = Some (snd c)).
  { induction h as [|x t IH]; cbn; [rewrite S; reflexivity|]. rewrite IH. reflexivity. }
  rewrite !L. reflexivity.
Qed.
Print Assumptions C36_history_independent.
(** Refuted: "the settings of a call hold for the whole output".  A page parsed by an
    earlier call keeps the earlier settings although make_docx writes it again. *)
Theorem C36_settings_of_output_refuted :
  exists n calls i, (i < n)%nat /\ last calls ([], None) = ([1%nat], None) /\
    nth_error (parse_calls (new_pages n) calls) i <> Some (init_settings None).
Proof.
  exists 2%nat, [([0%nat], Some [("max_border_width", VNum 1)]%string); ([1%nat], None)], 0%nat.
  split; [lia|]. split; [reflexivity|]. vm_compute. discriminate.
Qed.
Print Assumptions C36_settings_of_output_refuted.
Example C36_ex : let s := Some [("max_border_width", VNum 1); ("foo", VBool true)]%string in
  NoDup (map fst (given s)) /\ dget (init_settings s) "max_border_width" = Some (VNum 1) /\
  dget (init_settings s) "foo" = Some (VBool true) /\ dget (init_settings s) "debug" = Some (VBool false) /\
  nth_error (parse_calls (new_pages 2) [([], None); ([1%nat], s)]) 1 = Some (init_settings s).
Proof. cbn. repeat split; try reflexivity. repeat constructor; cbn; intuition discriminate. Qed.
