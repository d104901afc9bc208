(** Nothing is made up when a document is written; the text of layouts as written. *)
From Verif Require Import TreeSpec TreeProof TreeProof2 TreeProof3.
From Verif Require DocxModel DocxSpec DocxProof DocxProps LayoutModel LayoutSpec.
From Coq Require Import Lia.
Open Scope nat_scope.

Lemma trim_text l : incl (flat_map ditem_text (trim dnoruns l)) (flat_map ditem_text l).
Proof. intros x H. apply in_flat_map in H. destruct H as (d & Hd & Hx). apply in_flat_map. exists d. split; [apply (trim_in dnoruns), Hd|exact Hx]. Qed.
Lemma block_incl b : forall m, block_docx b = Some m -> incl (made_text m) (sblock_text b).
Proof.
  induction b as [t|before rows IH] using sblock_ind'; intros m E.
  - injection E as <-. destruct (block_written (ST t) (regular_text t)) as (m & E & T). injection E as <-. rewrite T. apply incl_refl.
  - rewrite table_docx in E. destruct (all_some (map (srow_docx (columns rows)) rows)) as [src|] eqn:Es; [|discriminate]. cbn [obind] in E.
    destruct (word_table dnewp dnoruns src) as [[hs g]|] eqn:Ew; [|discriminate]. cbn [option_map fst snd] in E. injection E as <-. cbn [made_text ditem_text].
    assert (A : allb ditem (fun l => incl (flat_map ditem_text l) (sblock_text (STable before rows))) g).
    { apply (table_bodies ditem dnewp dnoruns (fun l => incl (flat_map ditem_text l) (sblock_text (STable before rows)))) with (src := src) (hs := hs); [intros x []| |intros h ws w b Hr Hw Hf|exact Ew].
      - intros acc b Ha Hb. rewrite flat_map_app. apply incl_app; [|exact Hb]. intros x Hx. apply Ha, trim_text, Hx.
      - destruct (rows_src _ _ _ Es h ws w Hr Hw) as (cells & c & H1 & H2 & H3). destruct (cell_cases c w H3 b Hf) as (ms & Em & ->). rewrite cell_text. apply all_some_f2 in Em. destruct c as [[info v] bs]. cbn [snd] in Em.
        intros x Hx. cbn [sblock_text]. apply in_flat_map. exists (h, cells). split; [exact H1|]. cbn [snd]. apply in_flat_map. exists (info, v, bs). split; [exact H2|]. cbn [snd].
        assert (IH' : forall b, In b bs -> forall m, block_docx b = Some m -> incl (made_text m) (sblock_text b)) by (intros b Hb; exact (IH h cells info v bs b H1 H2 Hb)). clear - Em Hx IH'.
        induction Em as [|b m bs ms E _ IHm]; [destruct Hx|]. cbn [flat_map] in *. apply in_app_iff in Hx. apply in_app_iff. destruct Hx as [Hx|Hx]; [left; apply (IH' b (or_introl eq_refl) m E), Hx|right; exact (IHm Hx (fun b0 Hb => IH' b0 (or_intror Hb)))]. }
    intros x Hx. apply in_flat_map in Hx. destruct Hx as (row & Hrow & Hx). apply in_flat_map in Hx. destruct Hx as (t & Ht & Hx).
    unfold allb in A. rewrite Forall_forall in A. specialize (A row Hrow). rewrite Forall_forall in A. exact (A t Ht x Hx).
Qed.
Lemma document_incl tpl ps secs body : document_docx tpl ps = Some (secs, body) -> incl (flat_map ditem_text body) (flat_map (fun p => flat_map sblock_text (sp_blocks p)) ps).
Proof.
  intros E. destruct (document_inv tpl ps _ E) as (mss & F & Eo). injection Eo as _ ->. rewrite expand_text. intros x Hx. apply in_flat_map in Hx. destruct Hx as ([id t] & _ & Hx). unfold named in Hx. cbn [fst snd] in Hx.
  destruct (nth_error (concat mss) id) as [m|] eqn:En; [|destruct Hx]. apply nth_error_In in En.
  assert (Hm : In x (made_text m)) by (destruct m, t; try destruct Hx; exact Hx). clear - F En Hm. induction F as [|p ms ps mss Fb _ IH]; [destruct En|]. cbn [concat flat_map] in *. apply in_app_iff. apply in_app_iff in En. destruct En as [En|En]; [left|right; exact (IH En)].
  clear IH. induction Fb as [|b m0 bs ms E _ IHb]; [destruct En|]. cbn [flat_map]. apply in_app_iff. destruct En as [->|En]; [left; apply (block_incl b m E), Hm|right; exact (IHb En)].
Qed.

(* ------------------------------------------------------------------ *)
(** * Layouts *)
Lemma two_lists {A B Y} (f : A -> list Y) (g : B -> list Y) : forall l l', List.length l = List.length l' ->
  (forall k a b, nth_error l k = Some a -> nth_error l' k = Some b -> f a = g b) -> flat_map f l = flat_map g l'.
Proof.
  induction l as [|a l IH]; intros [|b l'] Hl H; try discriminate; [reflexivity|]. cbn [flat_map]. rewrite (H 0 a b eq_refl eq_refl). f_equal. apply IH; [cbn in Hl; lia|]. intros k x y Hx Hy. exact (H (S k) x y Hx Hy).
Qed.
Lemma map_flat {A B C} (f : B -> C) (g : A -> list B) l : map f (flat_map g l) = flat_map (fun x => map f (g x)) l.
Proof. induction l as [|x l IH]; [reflexivity|]. cbn [flat_map]. rewrite map_app, IH. reflexivity. Qed.
Lemma written_text_same b s : written_as b s -> sblock_text s = LayoutSpec.block_text b.
Proof.
  induction 1 as [t s E|bb cs before rows _ _ Ei El _ IH]; [exact E|]. cbn [sblock_text LayoutSpec.block_text].
  assert (R : flat_map (fun row : Q * list scell => flat_map (fun c : scell => flat_map sblock_text (snd c)) (snd row)) rows = flat_map (fun c : scell => flat_map sblock_text (snd c)) (flat_map snd rows)).
  { clear. induction rows as [|row rows IHr]; [reflexivity|]. cbn [flat_map]. rewrite flat_map_app, IHr. reflexivity. }
  match goal with |- ?G = _ => replace G with (flat_map (fun c : scell => flat_map sblock_text (snd c)) (flat_map snd rows)) by (symmetry; exact R) end.
  apply two_lists.
  - apply (f_equal (@List.length _)) in Ei. rewrite !map_length in Ei. symmetry. exact Ei.
  - intros k c' c Ec' Ec. apply two_lists; [symmetry; apply (El k c c' Ec Ec')|]. intros j b' b Eb' Eb. exact (IH k c c' j b b' Ec Ec' Eb Eb').
Qed.
Lemma written_all bs ss : Forall2 written_as bs ss -> flat_map sblock_text ss = LayoutSpec.text_of bs.
Proof. unfold LayoutSpec.text_of. induction 1 as [|b s bs ss E _ IH]; [reflexivity|]. cbn [flat_map]. rewrite IH, (written_text_same _ _ E). reflexivity. Qed.
