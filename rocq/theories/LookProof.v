(** How the characters of a page look in the Word file. *)
From Verif Require Import ParaSpec RunProof RunProps TreeProof TreeProof6 LookSpec.
From Verif Require Import PlaceProof2 WholeProof6.
From Verif Require Import CleanModel.
From Coq Require Import Lia Lqa.
Notation length := List.length.
Open Scope Z_scope.

Lemma nil_dec {A} (l : list A) : {l = []} + {l <> []}.
Proof. destruct l; [left; reflexivity|right; discriminate]. Qed.
Lemma span_kept names uris s : plain names s -> Forall2 (looks_as names uris) (span_glyphs s) (span_word names uris s).
Proof.
  destruct s as [t|k b]; [|intros _; repeat constructor]. intros ((Us & Uc) & W & Sc). cbn [span_glyphs span_word].
  destruct (write_span names uris t) as [r|] eqn:E.
  2:{ exfalso. apply W. apply (C72_fails names uris t Uc Us) in E. exact E. }
  destruct (nil_dec (ts_chars t)) as [Nc|Nc].
  { rewrite (C72_text names uris t r E). unfold ts_text. rewrite Nc. constructor. }
  specialize (Sc Nc). rewrite (C72_text names uris t r E). destruct (C72_format names uris t r Uc E) as (rd & gr & bl & f & _ & F1 & F2 & F3 & F4 & F5 & F6 & _).
  destruct (C72_styles names uris t r Sc E) as (S1 & S2 & S3 & _ & S4 & S5 & _). destruct (C72_link names uris t r E) as (L1 & L2).
  assert (G : forall cs, incl cs (ts_chars t) -> Forall2 (looks_as names uris) (map (fun c => (GChar c (ts_attrs t), ts_style t)) cs) (map (fun c => WordChar c r) (breaks_read (map ch_c cs)))).
  { induction cs as [|c cs IH]; intros I; [constructor|]. cbn [map breaks_read]. constructor; [|apply IH; intros x Hx; apply I; right; exact Hx].
    unfold looks_as. cbn [fst snd]. split; [reflexivity|]. split; [exact F1|]. split; [exact F2|]. split; [exact F3|]. split; [exact F6|]. split; [exists rd, gr, bl; split; [exact F4|exact F5]|].
    split; [exact S1|]. split; [exact S2|]. split; [exact S3|]. split; [exact S4|]. split; [exact S5|]. change (of_kind R_HYPERLINK (ts_style t)) with (styles_of R_HYPERLINK t).
    assert (NB : is_white (ch_c c) = false -> ~ blank (ts_text t)) by (intros Ew B; rewrite (B (ch_c c)) in Ew; [discriminate Ew|]; apply in_map; apply I; left; reflexivity).
    assert (BD : blank (ts_text t) \/ ~ blank (ts_text t)).
    { destruct (forallb is_white (ts_text t)) eqn:X; [left; intros x Hx; rewrite forallb_forall in X; apply X, Hx|right; intros B; assert (Y : forallb is_white (ts_text t) = true) by (apply forallb_forall; exact B); congruence]. }
    split.
    - intros N. destruct BD as [B|B]; [apply L1, B|]. rewrite (L2 B), N. reflexivity.
    - intros st more Es Ew. rewrite (L2 (NB Ew)), Es. eexists. reflexivity. }
  exact (G (ts_chars t) (incl_refl _)).
Qed.
Lemma Forall2_app2 {A B} (R : A -> B -> Prop) a b c d : Forall2 R a c -> Forall2 R b d -> Forall2 R (a ++ b) (c ++ d).
Proof. induction 1; cbn [app]; [auto|constructor; auto]. Qed.
Lemma spans_kept names uris ss : (forall s, In s ss -> plain names s) -> Forall2 (looks_as names uris) (styled ss) (flat_map (span_word names uris) ss).
Proof.
  induction ss as [|s ss IH]; intros H; [constructor|]. unfold styled in *. cbn [flat_map]. apply Forall2_app2; [apply span_kept, H; left; reflexivity|apply IH; intros x Hx; apply H; right; exact Hx].
Qed.
Lemma text_items t : item_spans (wp_items (text_docx t)) = flat_map ln_spans (st_lines t).
Proof. unfold text_docx, make_paragraph. cbn [wp_items]. apply write_spans. Qed.
Lemma text_kept names uris t : (forall l s, In l (st_lines t) -> In s (ln_spans l) -> plain names s) -> Forall2 (looks_as names uris) (line_glyphs (st_lines t)) (word_seen names uris (text_docx t)).
Proof.
  intros H. unfold word_seen. rewrite text_items. assert (E : line_glyphs (st_lines t) = styled (flat_map ln_spans (st_lines t))) by (unfold line_glyphs, styled; induction (st_lines t) as [|l ls IH]; [reflexivity|]; cbn [flat_map]; rewrite flat_map_app, IH by (intros x s Hx; apply H; right; exact Hx); reflexivity).
  rewrite E. apply spans_kept. intros s Hs. apply in_flat_map in Hs. destruct Hs as (l & Hl & Hs). exact (H l s Hl Hs).
Qed.
(** Blocks of text of a page or cell. *)
Lemma blocks_kept names uris us ss : (forall u l s, In u us -> In l (b_lines u) -> In s (ln_spans l) -> plain names s) -> Forall2 spaced us ss ->
  Forall2 (fun u w => Forall2 (looks_as names uris) (line_glyphs (b_lines u)) (word_seen names uris w)) us (flat_map block_par ss) /\
  forall b s, In b ss -> In s (spans_of b) -> plain names s.
Proof.
  intros H F. induction F as [|u s us ss (t & -> & El & _) F IH]; [split; [constructor|intros ? ? []]|].
  destruct IH as (I1 & I2); [intros x l s Hx; apply H; right; exact Hx|]. assert (Ht : forall l s, In l (st_lines t) -> In s (ln_spans l) -> plain names s) by (intros l s Hl; rewrite El in Hl; apply (H u l s (or_introl eq_refl) Hl)).
  split.
  - cbn [flat_map block_par app]. constructor; [|exact I1]. rewrite <- El. apply text_kept, Ht.
  - intros b s [<-|Hb] Hs; [|exact (I2 b s Hb Hs)]. cbn [spans_of] in Hs. apply in_flat_map in Hs. destruct Hs as (l & Hl & Hs). exact (Ht l s Hl Hs).
Qed.
From Verif Require Import TreeProof3 TreeProof5 TreeProps CutProps.
(** A document of pages of text. *)
Lemma document_kept names uris tpl ps (uss : list (list tblock)) : ps <> [] ->
  Forall2 (fun p us => Forall2 spaced us (sp_blocks p) /\ (forall u l s, In u us -> In l (b_lines u) -> In s (ln_spans l) -> plain names s)) ps uss ->
  exists body, document_try names uris tpl ps = (map sp_section ps, body) /\
    Forall2 (fun content us => Forall2 (fun u w => Forall2 (looks_as names uris) (line_glyphs (b_lines u)) (word_seen names uris w)) us (flat_map paragraphs_of content)) (dsections [] body) uss.
Proof.
  intros Np F.
  assert (All : forall p, In p ps -> (forall b, In b (sp_blocks p) -> regular b) /\ forall s, In s (page_spans p) -> plain names s).
  { clear Np. induction F as [|p us ps uss (Sp & Pl) F IH]; [intros ? []|]. intros q [<-|Hq]; [|apply IH, Hq]. split.
    - clear - Sp. intros b Hb. induction Sp as [|u s us ss (x & -> & _) Sp IH]; [destruct Hb|]. destruct Hb as [<-|Hb]; [constructor|apply IH, Hb].
    - intros s Hs. unfold page_spans in Hs. apply in_flat_map in Hs. destruct Hs as (b & Hb & Hs). exact (proj2 (blocks_kept names uris us _ Pl Sp) b s Hb Hs). }
  assert (D : document_docx tpl ps = Some (document_try names uris tpl ps)).
  { apply C81_all_written; [intros q Hq; destruct (All q Hq) as (A & B); split; [exact A|intros s Hs; apply (B s Hs)]|intros q s Hq Hs; apply (All q Hq), Hs]. }
  destruct (document_try names uris tpl ps) as [secs body] eqn:Ed. destruct (document_pars tpl ps secs body Np D) as (-> & Fp). exists body. split; [reflexivity|].
  clear - F Fp. revert F. revert uss. induction Fp as [|content p cs ps E Fp IH]; intros uss F; inversion F as [|? us ? uss' (Sp & Pl) F']; subst; constructor; [|apply IH, F'].
  rewrite E. exact (proj1 (blocks_kept names uris us _ Pl Sp)).
Qed.
