From Verif Require Import DrawProof.
From Verif Require RunModel.
From Coq Require Import Lia Lqa.
Open Scope nat_scope.

(* ------------------------------------------------------------------ *)
(** * C77: pictures and links of the Word package *)
(** Whatever pictures and links are written, in any order, recognised or not: the package stays sound, what was there stays, each picture that
    was written shows its own bytes and each link leads to its own address, in order; no picture is stored that was not given. *)
Theorem C77_package recognise es pk pk' os : sound pk -> do_writes recognise es pk = (pk', os) ->
  List.length os = List.length es /\ sound pk' /\ incl (pk_rels pk) (pk_rels pk') /\ incl (pk_parts pk) (pk_parts pk') /\
  (exists ds ls, pk_drawings pk' = pk_drawings pk ++ ds /\ pk_links pk' = pk_links pk ++ ls /\
     Forall2 (shows pk') ds (flat_map written_picture (combine es os)) /\ Forall2 (leads pk') ls (flat_map link_of es)) /\
  (forall k b, In (k, b) (pk_parts pk') -> In (k, b) (pk_parts pk) \/ In b (flat_map bytes_of es)).
Proof.
  intros S E. destruct (writes_spec recognise es pk S) as (pk1 & os1 & ds & ls & E1 & L & S1 & (K1 & K2) & D & M & F & G & N).
  rewrite E in E1. injection E1 as <- <-. repeat (split; [assumption|]). split; [|exact N]. exists ds, ls. auto.
Qed.
Print Assumptions C77_package.
(** The new document of python-docx is sound, so every converted document is. *)
Theorem C77_document recognise es pk pk' os : blank pk -> do_writes recognise es pk = (pk', os) ->
  sound pk' /\ Forall2 (shows pk') (pk_drawings pk') (flat_map written_picture (combine es os)) /\ Forall2 (leads pk') (pk_links pk') (flat_map link_of es) /\
  (forall k b, In (k, b) (pk_parts pk') -> In b (flat_map bytes_of es)).
Proof.
  intros (B1 & B2 & B3 & B4 & B5) E. assert (sound pk) as S.
  { constructor; rewrite ?B3, ?B4, ?B5; cbn [map].
    - exact B1.
    - constructor.
    - constructor.
    - intros n k I. destruct (B2 _ _ I) as (m & X). discriminate X.
    - constructor.
    - intros d [].
    - intros d [].
    - intros r []. }
  destruct (C77_package recognise es pk pk' os S E) as (_ & S' & _ & _ & (ds & ls & D & L & F & G) & N). rewrite B4 in D. rewrite B5 in L. cbn in D, L. rewrite D, L.
  split; [exact S'|]. split; [exact F|]. split; [exact G|]. intros k b I. destruct (N k b I) as [J|J]; [rewrite B3 in J; destruct J|exact J].
Qed.
Print Assumptions C77_document.
Lemma fst_unique {A} (l : list (nat * A)) n x y : NoDup (map fst l) -> In (n, x) l -> In (n, y) l -> x = y.
Proof.
  induction l as [|(m & z) l IH]; [intros _ []|]. cbn. intros N [E|I] [E'|I']; inversion N as [|? ? Ni N']; subst.
  - congruence.
  - injection E as -> ->. destruct Ni. apply (in_map fst l (n, y)) in I'. exact I'.
  - injection E' as -> ->. destruct Ni. apply (in_map fst l (n, x)) in I. exact I.
  - exact (IH N' I I').
Qed.
(** In a sound package a picture shows one thing only, and a link leads to one place only. *)
Theorem C77_unambiguous pk : sound pk -> (forall d b b', shows pk d b -> shows pk d b' -> b = b') /\ (forall r u u', leads pk r u -> leads pk r u' -> u = u') /\
  (forall r u k, leads pk r u -> ~ In (r, T_part k) (pk_rels pk)).
Proof.
  intros S. split; [|split].
  - intros d b b' (k & I & J) (k' & I' & J'). pose proof (fst_unique _ _ _ _ (so_rels _ S) I I') as X. injection X as <-. exact (fst_unique _ _ _ _ (so_parts _ S) J J').
  - intros r u u' I I'. pose proof (fst_unique _ _ _ _ (so_rels _ S) I I') as X. congruence.
  - intros r u k I I'. pose proof (fst_unique _ _ _ _ (so_rels _ S) I I') as X. discriminate X.
Qed.
Print Assumptions C77_unambiguous.
(** Saving succeeds just if XML has all characters of all addresses. *)
Theorem C77_saved recognise es pk pk' os : blank pk -> do_writes recognise es pk = (pk', os) ->
  save pk' = (if forallb (fun u => forallb RunModel.xml_char u) (flat_map link_of es) then Some pk' else None).
Proof.
  intros B E. assert (forall r u, In (r, T_url u) (pk_rels pk') <-> In (r, T_url u) (pk_rels pk') /\ In u (flat_map link_of es)) as Links.
  { intros r u. split; [|tauto]. intros I. split; [exact I|]. destruct B as (_ & B2 & _).
    assert (forall es pk pk' os, do_writes recognise es pk = (pk', os) -> forall r u, In (r, T_url u) (pk_rels pk') -> In (r, T_url u) (pk_rels pk) \/ In u (flat_map link_of es)) as All.
    { clear. assert (forall t pk r pk', relate t pk = Some (r, pk') -> forall q, In q (pk_rels pk') -> In q (pk_rels pk) \/ snd q = t) as Rel.
      { intros t pk r pk'. unfold relate. destruct (find _ _); [intros X; injection X as _ <-; auto|]. destruct (next_rid _); [|discriminate]. intros X. injection X as _ <-.
        cbn [pk_rels]. intros q I. apply in_app_or in I. destruct I as [I|[<-|[]]]; auto. }
      assert (forall b pk, pk_rels (snd (get_or_add_part b pk)) = pk_rels pk) as Part.
      { intros b pk. unfold get_or_add_part. destruct (find _ _); reflexivity. }
      assert (forall b w h width place pk r u, In (r, T_url u) (pk_rels (fst (put_picture b w h width place pk))) -> In (r, T_url u) (pk_rels pk)) as Put.
      { intros b w h width place pk r u. unfold put_picture. pose proof (Part b pk) as P. destruct (get_or_add_part b pk) as (k & pk1). cbn [snd] in P.
        destruct (relate (T_part k) pk1) as [(q & pk2)|] eqn:R; [|cbn [fst]; rewrite P; auto]. pose proof (Rel _ _ _ _ R) as X.
        destruct (w =? 0)%Z; [|cbv zeta; destruct (_ && _)]; cbn [fst pk_rels]; intros I; (destruct (X _ I) as [J|J]; [rewrite P in J; exact J|discriminate J]). }
      induction es as [|e es IH]; intros pk pk' os H r u I; [injection H as <- _; auto|]. cbn [do_writes] in H.
      destruct (do_write recognise e pk) as (pk1 & o) eqn:E1. destruct (do_writes recognise es pk1) as (pk2 & os2) eqn:E2. injection H as <- _.
      cbn [flat_map]. rewrite in_app_iff. destruct (IH _ _ _ E2 r u I) as [J|J]; [|auto].
      destruct e as [b width|b width x y|v]; cbn [do_write] in E1.
      - destruct (recognise b); [|injection E1 as <- _; auto|injection E1 as <- _; auto]. left. apply (Put b w h width None pk). rewrite E1. exact J.
      - destruct (recognise b); [|injection E1 as <- _; auto|injection E1 as <- _; auto]. left. apply (Put b w h width (Some (x, y)) pk). rewrite E1. exact J.
      - destruct (relate (T_url v) pk) as [(q & pk3)|] eqn:R; [|injection E1 as <- _; auto]. injection E1 as <- _. cbn [pk_rels] in J.
        destruct (Rel _ _ _ _ R _ J) as [K|K]; [auto|]. injection K as ->. right. left. left. reflexivity. }
    destruct (All es pk pk' os E r u I) as [J|J]; [destruct (B2 _ _ J) as (m & X); discriminate X|exact J]. }
  destruct (C77_document recognise es pk pk' os B E) as (_ & _ & G & _).
  unfold save. assert (forall a b : bool, (a = true <-> b = true) -> a = b) as Beq by (intros [|] [|] H; auto; [symmetry|]; apply H; reflexivity).
  rewrite (Beq _ (forallb (fun u => forallb RunModel.xml_char u) (flat_map link_of es))); [reflexivity|].
  rewrite !forallb_forall. split; intros H.
  - intros u I. assert (exists r, leads pk' r u) as (r & L).
    { clear - G I. induction G; [destruct I|]. destruct I as [<-|I]; [eauto|auto]. }
    exact (H _ L).
  - intros (r & [m|k|u]) I; cbn [snd]; auto. apply H. exact (proj2 (proj1 (Links r u) I)).
Qed.
Print Assumptions C77_saved.
(** Finding: one address with a character XML does not have, and the whole document is lost, though every page was written without an error
    (the file of the same name has been removed before). *)
Theorem C77_bad_link_refuted : exists es pk pk', do_writes (fun _ => Known 4 3) es pk = (pk', [Done; Done; Done]) /\ blank pk /\ save pk' = None /\
  exists e es', es = es' ++ [e] /\ save (fst (do_writes (fun _ => Known 4 3) es' pk)) <> None.
Proof.
  exists [Inline [1; 2]%Z 100; Link [104; 116; 116; 112]%Z; Link [104; 11]%Z], (mkPackage [(1, T_other 0); (3, T_other 1)] [] [] []).
  eexists. split; [vm_compute; reflexivity|]. split.
  { split; [repeat constructor; cbn; intuition discriminate|]. split; [|auto]. intros n t [E|[E|[]]]; injection E as _ <-; eauto. }
  split; [vm_compute; reflexivity|]. exists (Link [104; 11]%Z), [Inline [1; 2]%Z 100; Link [104; 116; 116; 112]%Z]. split; [reflexivity|]. vm_compute. discriminate.
Qed.
Print Assumptions C77_bad_link_refuted.
(** A document with a gap in its relations; the same picture in the text and behind it, another one, one python-docx does not know,
    the same link twice: two parts, relations 2, 4, 5, three pictures. *)
Definition dw_pack : package := mkPackage [(1, T_other 0); (3, T_other 1)] [] [] [].
Definition dw_rec (b : bytes) : seen := match b with [] => Broken | [0%Z] => Unknown | _ => Known 400 300 end.
Definition dw_writes : list write :=
  [Inline [1; 2]%Z 100; Inline [0]%Z 10; Link [104; 116]%Z; Floating [1; 2]%Z 50 (1 # 3) 20; Floating [7]%Z 40 0 0; Link [104; 116]%Z; Inline [] 10]%Q.
Example C77_nonvacuous : blank dw_pack /\ exists pk', do_writes dw_rec dw_writes dw_pack = (pk', [Done; Left_out; Done; Done; Done; Done; Failed]) /\
  pk_rels pk' = [(1, T_other 0); (3, T_other 1); (2, T_part 1); (4, T_url [104; 116]%Z); (5, T_part 2)] /\ pk_parts pk' = [(1, [1; 2]%Z); (2, [7]%Z)] /\
  map dr_rel (pk_drawings pk') = [2; 2; 5] /\ map dr_id (pk_drawings pk') = [1; 2; 3] /\ pk_links pk' = [4; 4] /\ save pk' = Some pk'.
Proof.
  split.
  { split; [repeat constructor; cbn; intuition discriminate|]. split; [|auto]. intros n t [E|[E|[]]]; injection E as _ <-; eauto. }
  eexists. split; [vm_compute; reflexivity|]. repeat split; vm_compute; reflexivity.
Qed.

(* ------------------------------------------------------------------ *)
(** * C78: sizes and places of pictures *)
Lemma pt_bound x : (0 <= x)%Q -> (0 <= WordModel.pt x)%Z /\ (0 <= 12700 * x - inject_Z (WordModel.pt x) < 1)%Q.
Proof. intros H. unfold WordModel.pt. assert (0 <= 12700 * x)%Q as P by lra. pose proof (qtrunc_nonneg (12700 * x)%Q P) as (X0 & X). split; [exact X0|lra]. Qed.
(** The largest length of a picture in Word, in English Metric Units (over 2 million points). *)
Definition largest : Z := 27273042316900.
Lemma scaled_le h cx w : (0 < w)%Z -> (0 <= h)%Z -> (0 <= cx)%Z -> (h * cx <= w * largest)%Z ->
  coordinate (round_half_even (inject_Z h * (inject_Z cx / inject_Z w))) = true.
Proof.
  intros W H C M. assert (inject_Z h * (inject_Z cx / inject_Z w) == inject_Z (h * cx) / inject_Z w)%Q as E.
  { rewrite inject_Z_mult. field. intros X. unfold Qeq in X. cbn [Qnum Qden inject_Z] in X. lia. }
  rewrite (round_half_even_comp _ _ E). assert (0 < inject_Z w)%Q as WQ by (change 0%Q with (inject_Z 0); rewrite <- Zlt_Qlt; exact W).
  assert (0 <= round_half_even (inject_Z (h * cx) / inject_Z w))%Z as A.
  { rewrite <- (round_half_even_int 0). apply round_half_even_mono. apply Qle_shift_div_l; [exact WQ|]. change (inject_Z 0) with 0%Q. rewrite Qmult_0_l. change 0%Q with (inject_Z 0). rewrite <- Zle_Qle. nia. }
  assert (round_half_even (inject_Z (h * cx) / inject_Z w) <= largest)%Z as B.
  { rewrite <- (round_half_even_int largest). apply round_half_even_mono. apply Qle_shift_div_r; [exact WQ|]. rewrite <- inject_Z_mult, <- Zle_Qle. lia. }
  unfold coordinate. unfold largest in B. apply andb_true_intro. split; apply Z.leb_le; assumption.
Qed.
(** A picture python-docx recognises is written, unless it is over 2 million points high or wide; one in the text it does not recognise is left out. *)
Theorem C78_written recognise float b r w h pk : sound pk -> recognise b = Known w h -> (0 < w)%Z -> (0 <= h)%Z -> (rx0 r <= rx1 r)%Q ->
  (12700 * (rx1 r - rx0 r) <= inject_Z largest)%Q -> (inject_Z h * (12700 * (rx1 r - rx0 r)) <= inject_Z w * inject_Z largest)%Q ->
  snd (do_write recognise (picture float b r) pk) = Done.
Proof.
  intros S R W H X M1 M2. destruct (write_spec recognise (picture float b r) pk S) as (pk' & o & ds & ls & -> & _ & _ & _ & _ & _ & _ & _ & D & _). cbn [snd].
  assert (0 <= rx1 r - rx0 r)%Q as P by (apply (proj1 (Qle_minus_iff _ _)); exact X). destruct (pt_bound _ P) as (P0 & P1).
  assert (writable w h (rx1 r - rx0 r)) as Wr.
  { split; [lia|]. split.
    - unfold coordinate. apply andb_true_intro. split; apply Z.leb_le; [exact P0|]. change 27273042316900%Z with largest. rewrite Zle_Qle. lra.
    - apply scaled_le; auto. rewrite Zle_Qle, !inject_Z_mult. assert (0 <= inject_Z h)%Q as HQ by (change 0%Q with (inject_Z 0); rewrite <- Zle_Qle; exact H).
      eapply Qle_trans; [|exact M2]. rewrite (Qmult_comm (inject_Z h)), (Qmult_comm (inject_Z h)). apply Qmult_le_compat_r; [lra|exact HQ]. }
  apply D. destruct float; cbn [picture]; exists w, h; auto.
Qed.
Print Assumptions C78_written.
Theorem C78_left_out recognise float b r pk : sound pk ->
  snd (do_write recognise (picture float b r) pk) = Left_out <-> float = false /\ recognise b = Unknown.
Proof.
  intros S. destruct (write_spec recognise (picture float b r) pk S) as (pk' & o & ds & ls & -> & _ & _ & _ & _ & _ & _ & _ & _ & L & _). cbn [snd]. rewrite L.
  split; [|intros (-> & U); cbn [picture]; eauto]. intros (b' & wd & E & U). destruct float; [discriminate E|]. injection E as <- _. auto.
Qed.
Print Assumptions C78_left_out.
(** What is written has the width the picture has on the PDF page, to one English Metric Unit, and the proportions of the picture file; a floating one
    has its left top corner where it is on the PDF page. *)
Theorem C78_size recognise float b r pk pk' : sound pk -> do_write recognise (picture float b r) pk = (pk', Done) ->
  exists w h d, recognise b = Known w h /\ w <> 0%Z /\ pk_drawings pk' = pk_drawings pk ++ [d] /\ shows pk' d b /\
    ((rx0 r <= rx1 r)%Q -> (0 <= 12700 * (rx1 r - rx0 r) - inject_Z (dr_width d) < 1)%Q) /\
    (2 * Z.abs (dr_height d * w - h * dr_width d) <= Z.abs w)%Z /\
    (float = false -> dr_place d = None) /\
    (float = true -> exists x y, dr_place d = Some (x, y) /\ ((0 <= rx0 r)%Q -> (0 <= 12700 * rx0 r - inject_Z x < 1)%Q) /\ ((0 <= ry0 r)%Q -> (0 <= 12700 * ry0 r - inject_Z y < 1)%Q)).
Proof.
  intros S E. destruct (write_spec recognise (picture float b r) pk S) as (pk1 & o & ds & ls & E1 & _ & _ & D & _ & F & _ & _ & _ & _ & X). rewrite E in E1. injection E1 as <- <-.
  assert (written_picture (picture float b r, Done) = [b]) as W by (destruct float; reflexivity). rewrite W in F. inversion F as [|d b' ds' bs' Sh F' E1 E2]. subst b' bs' ds. inversion F'. subst ds'.
  destruct (X d (or_introl eq_refl)) as (b' & wd & place & w & h & R & Wz & Ep & Dw & Dh & Dp).
  assert (b' = b /\ wd = (rx1 r - rx0 r)%Q /\ place = if float then Some (rx0 r, ry0 r) else None) as (-> & -> & ->).
  { destruct float, place as [(x & y)|]; cbn [picture] in Ep; try discriminate Ep; injection Ep; intros; subst; auto. }
  exists w, h, d. split; [exact R|]. split; [exact Wz|]. split; [exact D|]. split; [exact Sh|]. split.
  { intros L. rewrite Dw. assert (0 <= rx1 r - rx0 r)%Q as P by lra. exact (proj2 (pt_bound _ P)). }
  split.
  { rewrite Dh, Dw. set (cx := WordModel.pt (rx1 r - rx0 r)). set (q := (inject_Z h * (inject_Z cx / inject_Z w))%Q).
    pose proof (round_half_even_bound q) as B. set (z := round_half_even q) in *.
    assert (q * inject_Z w == inject_Z (h * cx))%Q as Q1.
    { unfold q. rewrite inject_Z_mult. field. intros Y. unfold Qeq in Y. cbn [Qnum Qden inject_Z] in Y. lia. }
    assert (inject_Z (2 * Z.abs (z * w - h * cx)) <= inject_Z (Z.abs w))%Q as G; [|rewrite <- Zle_Qle in G; exact G].
    assert (inject_Z (z * w - h * cx) == (inject_Z z - q) * inject_Z w)%Q as Q2.
    { unfold Z.sub. rewrite inject_Z_plus, inject_Z_opp, inject_Z_mult, <- Q1. ring. }
    assert (forall z, inject_Z (Z.abs z) == Qabs (inject_Z z))%Q as Ab by (intros [|p|p]; reflexivity).
    rewrite inject_Z_mult, !Ab, Q2, Qabs_Qmult. change (inject_Z 2) with 2%Q. 
    assert (Qabs (inject_Z z - q) <= 1 # 2)%Q as B2 by (apply Qabs_Qle_condition; split; lra).
    pose proof (Qabs_nonneg (inject_Z w)) as N. rewrite Qmult_assoc. rewrite <- (Qmult_1_l (Qabs (inject_Z w))) at 2. apply Qmult_le_compat_r; [lra|exact N]. }
  split; [intros ->; rewrite Dp; reflexivity|]. intros ->. rewrite Dp. cbn [option_map fst snd]. do 2 eexists. split; [reflexivity|].
  split; intros P; exact (proj2 (pt_bound _ P)).
Qed.
Print Assumptions C78_size.
(** Finding: the height of the picture on the PDF page does not matter: one stretched there to half its height is twice as high in Word, and one turned on
    its side keeps the proportions it had before. *)
Theorem C78_stretched_refuted : exists b r d pk', proper r /\ do_write (fun _ => Known 100 100) (picture false b r) dw_pack = (pk', Done) /\ pk_drawings pk' = [d] /\
  ry1 r - ry0 r == 50 /\ inject_Z (dr_height d) == 12700 * 100.
Proof. exists [1%Z], (mkRect 10 20 110 70). do 2 eexists. split; [split; vm_compute; reflexivity|]. split; [vm_compute; reflexivity|]. split; [reflexivity|]. split; vm_compute; reflexivity. Qed.
Print Assumptions C78_stretched_refuted.
(** Finding: a picture python-docx does not know is left out in the text, but behind the text it ends the page with an exception. *)
Theorem C78_unknown_refuted : exists b r, proper r /\ snd (do_write (fun _ => Unknown) (picture false b r) dw_pack) = Left_out /\ snd (do_write (fun _ => Unknown) (picture true b r) dw_pack) = Failed.
Proof. exists [1%Z], (mkRect 10 20 110 70). split; [split; vm_compute; reflexivity|]. split; vm_compute; reflexivity. Qed.
Print Assumptions C78_unknown_refuted.
(** A photo of 401 to 300 pixels behind the text. *)
Example C78_nonvacuous : exists pk' d, do_write (fun _ => Known 401 300) (picture true [1; 2]%Z (mkRect (1 # 3) 20 (100 + (2 # 3)) 95)) dw_pack = (pk', Done) /\ pk_drawings pk' = [d] /\
  dr_width d = 1274233%Z /\ dr_height d = 953292%Z /\ dr_place d = Some (4233, 254000)%Z.
Proof. do 2 eexists. split; [vm_compute; reflexivity|]. split; [reflexivity|]. repeat split; vm_compute; reflexivity. Qed.
