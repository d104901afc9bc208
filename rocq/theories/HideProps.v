(** Hiding the text of a page before cutting a picture out of it (C62). *)
From Verif Require Import HideSpec.
From Coq Require Import List Lia Ascii String.
Open Scope string_scope.
Open Scope list_scope.

Lemma mark_cons a b x y t : mark a b (String x (String y t)) =
  if Ascii.eqb x a && Ascii.eqb y b then String x (String y (append " 3 Tr" (mark a b t))) else String x (mark a b (String y t)).
Proof. reflexivity. Qed.
Lemma mark_sep a b s rest : s <> a -> mark a b (String s rest) = String s (mark a b rest).
Proof. intros N. destruct rest as [|y r]; [reflexivity|]. rewrite mark_cons. apply Ascii.eqb_neq in N. rewrite N. reflexivity. Qed.
Lemma mark_clean a b s t rest : s <> a -> s <> b -> ~ contains (String a (String b "")) t ->
  mark a b (append t (String s rest)) = append t (String s (mark a b rest)).
Proof.
  intros Na Nb. induction t as [|x t IH]; intros C; [apply mark_sep; exact Na|].
  assert (C' : ~ contains (String a (String b "")) t).
  { intros (u & v & E). apply C. exists (String x u), v. rewrite E. reflexivity. }
  specialize (IH C'). destruct t as [|y t].
  - cbn [append] in *. rewrite mark_cons. apply Ascii.eqb_neq in Nb. rewrite Nb, andb_false_r. rewrite IH. reflexivity.
  - cbn [append] in *. rewrite mark_cons. destruct (Ascii.eqb_spec x a) as [->|Nx]; [destruct (Ascii.eqb_spec y b) as [->|Ny]|]; cbn [andb].
    + destruct C. exists "", t. reflexivity.
    + rewrite IH. reflexivity.
    + rewrite IH. reflexivity.
Qed.
Lemma mark_hit a b s rest : s <> a -> mark a b (append (String a (String b "")) (String s rest)) =
  append (String a (String b "")) (append " 3 Tr" (String s (mark a b rest))).
Proof. intros N. cbn [append]. rewrite mark_cons, !Ascii.eqb_refl. cbn [andb]. rewrite mark_sep by exact N. reflexivity. Qed.

(** One replacement on tokens. *)
Definition step (op : string) (p : token) : list token := if String.eqb (fst p) op then [(fst p, " "%char); ("3", " "%char); ("Tr", snd p)] else [p].
Lemma mark_tokens a b ts : a <> " "%char ->
  (forall p, In p ts -> snd p <> a /\ snd p <> b /\ (fst p = String a (String b "") \/ ~ contains (String a (String b "")) (fst p))) ->
  mark a b (write ts) = write (flat_map (step (String a (String b ""))) ts).
Proof.
  intros Nsp. induction ts as [|p ts IH]; intros H; [reflexivity|]. destruct (H p (or_introl eq_refl)) as (Na & Nb & Cs).
  assert (IH' := IH (fun q Hq => H q (or_intror Hq))). destruct p as [t s].
  change (write ((t, s) :: ts)) with (append t (String s (write ts))). cbn [flat_map]. unfold step at 1. cbn [fst snd] in *.
  destruct (String.eqb_spec t (String a (String b ""))) as [->|N].
  - rewrite mark_hit by exact Na. rewrite IH'. reflexivity.
  - destruct Cs as [Cs|Cs]; [contradiction|]. rewrite mark_clean by assumption. rewrite IH'. reflexivity.
Qed.
Lemma contains_two p t : contains p t -> String.length p <= String.length t.
Proof.
  intros (u & v & ->). induction u as [|c u IH]; cbn [append String.length]; [|lia].
  induction p as [|c p IHp]; cbn [append String.length]; lia.
Qed.
Lemma short_clean p t : String.length t < String.length p -> ~ contains p t.
Proof. intros L C. apply contains_two in C. lia. Qed.
Lemma two_clean a b x y : ~ (x = a /\ y = b) -> ~ contains (String a (String b "")) (String x (String y "")).
Proof.
  intros N (u & v & E). destruct u as [|c u]; cbn [append] in E.
  - injection E as E1 E2 _. apply N. auto.
  - injection E as _ E. destruct u as [|d u]; cbn [append] in E; [discriminate|]. injection E as _ E. destruct u; discriminate.
Qed.

(** C62: if the letters BT, Tm, Td occur only as operators, then what is written back is the same
    stream with "3 Tr" (make text invisible) after each of these operators, and nothing else. *)
Theorem C62_only_insertions : forall ts, (forall p, In p ts -> plain p) -> hide (write ts) = write (inserted ts).
Proof.
  intros ts H. unfold hide.
  assert (Op : forall a b t, positioning t -> t = String a (String b "") \/ ~ contains (String a (String b "")) t).
  { intros a b t [->|[->| ->]].
    - destruct (ascii_dec "B" a) as [<-|N]; [destruct (ascii_dec "T" b) as [<-|N]|]; [left; reflexivity|right|right]; apply two_clean; intros [X Y]; auto.
    - destruct (ascii_dec "T" a) as [<-|N]; [destruct (ascii_dec "m" b) as [<-|N]|]; [left; reflexivity|right|right]; apply two_clean; intros [X Y]; auto.
    - destruct (ascii_dec "T" a) as [<-|N]; [destruct (ascii_dec "d" b) as [<-|N]|]; [left; reflexivity|right|right]; apply two_clean; intros [X Y]; auto. }
  assert (St : forall op p, (forall q, q = p -> plain q) -> forall q, In q (step op p) -> (forall c, In c ["B"; "T"; "m"; "d"]%char -> snd q <> c) /\
             (positioning (fst q) \/ (~ contains "BT" (fst q) /\ ~ contains "Tm" (fst q) /\ ~ contains "Td" (fst q)))).
  { intros op p Hp q Hq. unfold step in Hq. destruct (Hp p eq_refl) as [S1 S2]. destruct (String.eqb (fst p) op); [|destruct Hq as [<-|[]]; split; assumption].
    destruct Hq as [<-|[<-|[<-|[]]]]; cbn [fst snd].
    - split; [intros c Hc E; subst c; cbn in Hc; intuition discriminate|exact S2].
    - split; [intros c Hc E; subst c; cbn in Hc; intuition discriminate|]. right. repeat split; apply short_clean; cbn; lia.
    - split; [exact S1|]. right. repeat split; apply two_clean; intros [X Y]; discriminate. }
  assert (Pl : forall op l, (forall p, In p l -> plain p) -> forall p, In p (flat_map (step op) l) -> plain p).
  { intros op l Hl p Hp. apply in_flat_map in Hp. destruct Hp as (q & Hq & Hp). apply (St op q); [intros q' ->; apply Hl; exact Hq|exact Hp]. }
  assert (Mk : forall a b l, In a ["B"; "T"; "m"; "d"]%char -> In b ["B"; "T"; "m"; "d"]%char -> a <> " "%char ->
             In (String a (String b "")) ["BT"; "Tm"; "Td"] -> (forall p, In p l -> plain p) -> mark a b (write l) = write (flat_map (step (String a (String b ""))) l)).
  { intros a b l Ha Hb Hs Ho Hl. apply mark_tokens; [exact Hs|]. intros p Hp. destruct (Hl p Hp) as [S1 S2]. split; [apply S1; exact Ha|]. split; [apply S1; exact Hb|].
    destruct S2 as [S2|(C1 & C2 & C3)]; [apply Op; exact S2|]. right. destruct Ho as [<-|[<-|[<-|[]]]]; assumption. }
  rewrite (Mk "B"%char "T"%char); [|cbn; auto|cbn; auto|discriminate|cbn; auto|exact H].
  pose proof (Pl "BT" ts H) as H1.
  rewrite (Mk "T"%char "m"%char); [|cbn; auto|cbn; auto|discriminate|cbn; auto|exact H1].
  pose proof (Pl "Tm" _ H1) as H2.
  rewrite (Mk "T"%char "d"%char); [|cbn; auto|cbn; tauto|discriminate|cbn; tauto|exact H2].
  f_equal. clear. unfold inserted. induction ts as [|p ts IH]; [reflexivity|]. cbn [flat_map]. rewrite !flat_map_app, IH. f_equal.
  destruct p as [t s]. unfold step, is_positioning. cbn [fst snd].
  destruct (String.eqb_spec t "BT") as [->|N1]; [reflexivity|]. destruct (String.eqb_spec t "Tm") as [->|N2]; [reflexivity|].
  destruct (String.eqb_spec t "Td") as [->|N3]; [reflexivity|].
  cbn [flat_map app orb fst]. rewrite (proj2 (String.eqb_neq _ _) N2). cbn [flat_map app fst]. rewrite (proj2 (String.eqb_neq _ _) N3). reflexivity.
Qed.
Print Assumptions C62_only_insertions.

(** C62: then all text of the page is invisible in the picture, if the page does not set the text
    rendering mode itself: every operator that shows text works in mode 3. *)
Theorem C62_text_invisible : forall saved mode prev ts, well_nested false ts -> (forall s, ~ In ("Tr", s) ts) ->
  forall m, In m (modes saved mode prev (inserted ts)) -> m = "3".
Proof.
  intros saved mode prev ts.
  assert (X : forall ts b mode prev, well_nested b ts -> (forall s, ~ In ("Tr", s) ts) -> (b = true -> mode = "3") ->
              forall m, In m (modes saved mode prev (inserted ts)) -> m = "3").
  { clear. induction ts as [|(t, s) ts IH]; intros b mode prev W N I m Hm; [destruct Hm|].
    assert (N' : forall s, ~ In ("Tr", s) ts) by (intros s' X; apply (N s'); right; exact X).
    unfold inserted in Hm. cbn [flat_map fst snd] in Hm. fold (inserted ts) in Hm. unfold is_positioning in Hm. cbn [well_nested] in W.
    destruct (String.eqb_spec t "BT") as [->|N1].
    - cbn in Hm. apply (IH true "3" "Tr" W N' (fun _ => eq_refl) m Hm).
    - destruct (String.eqb_spec t "Tm") as [->|N2].
      + cbn in Hm. cbn in W. destruct W as [_ W]. apply (IH b "3" "Tr" W N' (fun _ => eq_refl) m Hm).
      + destruct (String.eqb_spec t "Td") as [->|N3].
        * cbn in Hm. cbn in W. destruct W as [_ W]. apply (IH b "3" "Tr" W N' (fun _ => eq_refl) m Hm).
        * cbn [orb app modes] in Hm. destruct (String.eqb_spec t "Tr") as [->|N4]; [destruct (N s); left; reflexivity|].
          destruct (String.eqb_spec t "Q") as [->|N5].
          -- cbn [String.eqb orb] in W. apply (IH false _ _ W N') in Hm; [exact Hm|discriminate].
          -- destruct (String.eqb_spec t "ET") as [->|N6].
             ++ cbn in Hm. cbn in W. apply (IH false _ _ W N') in Hm; [exact Hm|discriminate].
             ++ cbn [orb] in W. destruct W as [Sh W]. destruct (showing t) eqn:E.
                ** destruct Hm as [<-|Hm]; [apply I; apply Sh; reflexivity|]. apply (IH b _ _ W N' I m Hm).
                ** apply (IH b _ _ W N' I m Hm). }
  intros W N m Hm. apply (X ts false mode prev W N) in Hm; [exact Hm|discriminate].
Qed.
Print Assumptions C62_text_invisible.

(** C62: other streams of the document stay as they are. *)
Theorem C62_other_streams : forall page doc k, ~ In k page -> nth_error (hide_page_text page doc) k = nth_error doc k.
Proof.
  intros page doc k H. unfold hide_page_text. revert doc. induction page as [|x page IH]; intros doc; [reflexivity|]. cbn [fold_left].
  rewrite IH by (intros X; apply H; right; exact X). assert (Nx : x <> k) by (intros ->; apply H; left; reflexivity).
  destruct (nth_error doc x) as [s|]; [|reflexivity]. clear - Nx. revert x k Nx. induction doc as [|d doc IH]; intros [|x] [|k] Nx; cbn; try reflexivity; [congruence|apply IH; congruence].
Qed.
Print Assumptions C62_other_streams.
(** ... and a stream of the page, referenced once, is rewritten as above. *)
Theorem C62_page_streams : forall page doc k s, NoDup page -> In k page -> nth_error doc k = Some s -> nth_error (hide_page_text page doc) k = Some (hide s).
Proof.
  intros page doc k s Nd. revert doc. induction Nd as [|x page Hx Nd IH]; intros doc Hk E; [destruct Hk|].
  change (hide_page_text (x :: page) doc) with (hide_page_text page (match nth_error doc x with Some s => set_nth x (hide s) doc | None => doc end)).
  destruct Hk as [->|Hk].
  - rewrite C62_other_streams by exact Hx. rewrite E. clear - E. revert k E. induction doc as [|d doc IH]; intros [|k] E; cbn in *; try discriminate; [reflexivity|apply IH; exact E].
  - apply IH; [exact Hk|]. assert (Nx : x <> k) by (intros ->; contradiction). destruct (nth_error doc x) as [s'|]; [|exact E].
    clear - E Nx. revert x k E Nx. induction doc as [|d doc IH]; intros [|x] [|k] E Nx; cbn in *; try discriminate; try congruence. apply IH; congruence.
Qed.
Print Assumptions C62_page_streams.

(** C62 findings.  A page that sets the mode itself stays visible in the picture. *)
Theorem C62_own_mode_refuted : exists ts, (forall p, In p ts -> plain p) /\ well_nested false ts /\
  forall saved, modes saved "0" "" (inserted ts) = ["0"].
Proof.
  exists (map (fun t : string => (t, " "%char)) ["BT"; "0"; "Tr"; "(x)"; "Tj"; "ET"]). split; [|split; [cbn; intuition discriminate|reflexivity]].
  assert (Sp : forall c, In c ["B"; "T"; "m"; "d"]%char -> " "%char <> c) by (intros c Hc E; subst c; cbn in Hc; intuition discriminate).
  intros p Hp. cbn in Hp. destruct Hp as [<-|[<-|[<-|[<-|[<-|[<-|[]]]]]]]; (split; [exact Sp|]); cbn [fst snd].
  - left. left. reflexivity.
  - right. repeat split; apply short_clean; cbn; lia.
  - right. repeat split; apply two_clean; intros [X Y]; discriminate.
  - right. repeat split; intros (u & v & E); (destruct u as [|c u]; cbn in E; [discriminate|]; injection E as _ E; destruct u as [|c' u]; cbn in E; [discriminate|]; injection E as _ E; destruct u as [|c'' u]; cbn in E; [discriminate|]; injection E as _ E; destruct u; discriminate).
  - right. repeat split; apply two_clean; intros [X Y]; discriminate.
  - right. repeat split; apply two_clean; intros [X Y]; discriminate.
Qed.
Print Assumptions C62_own_mode_refuted.
(** The text itself changes when it contains these letters: after a conversion with pictures the same
    Converter reads "BT 3 TrW" where the pdf says "BTW". *)
Theorem C62_literal_text_refuted : hide "BT (BTW) Tj ET " = "BT 3 Tr (BT 3 TrW) Tj ET ".
Proof. reflexivity. Qed.
Print Assumptions C62_literal_text_refuted.
(** Rendering again rewrites again: the stream grows with every picture. *)
Theorem C62_not_idempotent_refuted : exists s, hide (hide s) <> hide s /\ String.length (hide (hide s)) = String.length (hide s) + 5 /\ String.length (hide s) = String.length s + 5.
Proof. exists "BT (x) Tj ET ". vm_compute. split; [discriminate|]. split; reflexivity. Qed.
Print Assumptions C62_not_idempotent_refuted.
(** A stream that two pages share is rewritten for both when one of them is parsed. *)
Theorem C62_shared_stream_refuted : exists doc page1 page2 k, In k page1 /\ In k page2 /\ page1 <> page2 /\
  nth_error (hide_page_text page1 doc) k <> nth_error doc k.
Proof. exists ["BT (head) Tj ET "; "BT (one) Tj ET "; "BT (two) Tj ET "], [0; 1], [0; 2], 0. cbn. split; [auto|]. split; [auto|]. split; [discriminate|]. vm_compute. discriminate. Qed.
Print Assumptions C62_shared_stream_refuted.

Example C62_ex_stream : exists ts, (forall p, In p ts -> plain p) /\ well_nested false ts /\ (forall s, ~ In ("Tr", s) ts) /\
  hide (write ts) = "BT 3 Tr 7 8 Td 3 Tr [A] TJ ET Q " /\ forall saved, modes saved "0" "" (inserted ts) = ["3"].
Proof.
  exists (map (fun t : string => (t, " "%char)) ["BT"; "7"; "8"; "Td"; "[A]"; "TJ"; "ET"; "Q"]).
  split; [|split; [cbn; intuition discriminate|split; [intros s X; cbn in X; intuition discriminate|split; [reflexivity|reflexivity]]]].
  assert (Sp : forall c, In c ["B"; "T"; "m"; "d"]%char -> " "%char <> c) by (intros c Hc E; subst c; cbn in Hc; intuition discriminate).
  intros p Hp. cbn in Hp. destruct Hp as [<-|[<-|[<-|[<-|[<-|[<-|[<-|[<-|[]]]]]]]]]; (split; [exact Sp|]); cbn [fst snd].
  - left. left. reflexivity.
  - right. repeat split; apply short_clean; cbn; lia.
  - right. repeat split; apply short_clean; cbn; lia.
  - left. right. right. reflexivity.
  - right. repeat split; intros (u & v & E); (destruct u as [|c u]; cbn in E; [discriminate|]; injection E as _ E; destruct u as [|c' u]; cbn in E; [discriminate|]; injection E as _ E; destruct u as [|c'' u]; cbn in E; [discriminate|]; injection E as _ E; destruct u; discriminate).
  - right. repeat split; apply two_clean; intros [X Y]; discriminate.
  - right. repeat split; apply two_clean; intros [X Y]; discriminate.
  - right. repeat split; apply short_clean; cbn; lia.
Qed.
